(* What loadtxt and genfromtxt make of the lines of a file. *)
From Coq Require Import Ascii String SpecFloat Lia.
From Verif Require Import Base Lists Int_Model F64_Model Arr_Spec Arr_Model Arr_Wf Copy_Model Copy_Proofs Rng_Model Date_Model Date_Str Gu_Model Gu_Proofs Io_Spec Io_Model Io_Proofs New_Spec New_Model Txt_Spec Txt_Model Txt_Float Txt_Proofs Txt_Save.
Local Open Scope nat_scope.
Local Open Scope list_scope.

(* ---- the loop is a loop over the data rows ---- *)
Definition kept (c : bytes) (ls : list bytes) : list bytes := filter (fun t => negb (ignored c t)) (map trim ls).
Definition data_rows (c dl : bytes) (u : option (list nat)) (ls : list bytes) : list (list bytes) := map (fun t => choose_cols u (fields dl t)) (kept c ls).
Definition at_most (m : option nat) {A} (l : list A) : list A := match m with Some k => firstn k l | None => l end.
Fixpoint go (field : bytes -> res spec_float) (rows : list (list bytes)) (nc : option nat) (nr : nat) (data : list spec_float) : res (option nat * nat * list spec_float) :=
  match rows with
  | [] => Ok (nc, nr, data)
  | r :: rs => if match nc with Some n => negb (n =? List.length r) | None => false end then Err
               else bind (mapM field r) (fun vs => go field rs (Some (List.length r)) (S nr) (data ++ vs))
  end.
Lemma scan_go field c dl u m ls : forall nc nr data,
  scan field c dl u m ls nc nr data = go field (at_most (option_map (fun k => k - nr) m) (data_rows c dl u ls)) nc nr data.
Proof.
  induction ls as [|l ls IH]; intros nc nr data.
  - unfold data_rows, kept. cbn [map filter scan]. destruct m; cbn [option_map at_most]; rewrite ?firstn_nil; reflexivity.
  - cbn [scan]. unfold data_rows, kept. cbn [map filter]. destruct m as [k|]; cbn [option_map at_most].
    + destruct (Nat.leb_spec k nr) as [L|L]; [replace (k - nr) with 0 by lia; reflexivity|].
      destruct (ignored c (trim l)); cbn [negb]; [rewrite IH; reflexivity|]. cbn [map]. replace (k - nr) with (S (k - S nr)) by lia. cbn [firstn go].
      destruct (match nc with Some n => negb (n =? _) | None => false end); [reflexivity|]. destruct (mapM field _) as [vs| | |]; [|reflexivity..]. cbn [bind]. rewrite IH. reflexivity.
    + destruct (ignored c (trim l)); cbn [negb]; [rewrite IH; reflexivity|]. cbn [map go].
      destruct (match nc with Some n => negb (n =? _) | None => false end); [reflexivity|]. destruct (mapM field _) as [vs| | |]; [|reflexivity..]. cbn [bind]. rewrite IH. reflexivity.
Qed.
Lemma scan_go0 field c dl u m ls : scan field c dl u m ls None 0 [] = go field (at_most m (data_rows c dl u ls)) None 0 [].
Proof. rewrite scan_go. destruct m as [k|]; [|reflexivity]. cbn [option_map]. rewrite Nat.sub_0_r. reflexivity. Qed.

(* the loop succeeds on rows of one length whose fields are numbers *)
Lemma go_ok field rows : forall nc nr data r, go field rows nc nr data = Ok r ->
  exists vals, Forall2 (fun row vs => mapM field row = Ok vs) rows vals /\ snd r = data ++ concat vals /\ snd (fst r) = nr + List.length rows /\
    (match nc with Some n => Forall (fun row => List.length row = n) rows /\ fst (fst r) = Some n
     | None => match rows with [] => fst (fst r) = None | row :: _ => Forall (fun x => List.length x = List.length row) rows /\ fst (fst r) = Some (List.length row) end end).
Proof.
  induction rows as [|row rows IH]; intros nc nr data r H.
  - injection H as <-. exists []. split; [constructor|]. cbn. rewrite app_nil_r, Nat.add_0_r. split; [reflexivity|]. split; [reflexivity|]. destruct nc; [split; [constructor|reflexivity]|reflexivity].
  - cbn [go] in H. destruct (match nc with Some n => negb (n =? _) | None => false end) eqn:EN; [discriminate|].
    destruct (mapM field row) as [vs| | |] eqn:EV; [|discriminate..]. cbn [bind] in H. destruct (IH _ _ _ _ H) as (vals & F & E1 & E2 & HF & E3).
    exists (vs :: vals). split; [constructor; assumption|]. cbn [concat List.length]. rewrite E1, <- app_assoc. split; [reflexivity|]. split; [lia|].
    destruct nc as [n|]; [|split; [constructor; [reflexivity|exact HF]|exact E3]]. apply negb_false_iff, Nat.eqb_eq in EN. subst n. split; [constructor; [reflexivity|exact HF]|exact E3].
Qed.
Lemma go_of field rows vals n : Forall2 (fun row vs => mapM field row = Ok vs) rows vals -> Forall (fun row => List.length row = n) rows ->
  forall nc nr data, (nc = None \/ nc = Some n) ->
  go field rows nc nr data = Ok (match rows with [] => nc | _ => Some n end, nr + List.length rows, data ++ concat vals).
Proof.
  intros F. induction F as [|row vs rows vals Hv F IH]; intros HL nc nr data HN.
  - cbn. rewrite app_nil_r, Nat.add_0_r. reflexivity.
  - inversion HL as [|? ? H1 H2]; subst. cbn [go].
    assert ((match nc with Some n => negb (n =? List.length row) | None => false end) = false) as -> by (destruct HN as [->| ->]; [reflexivity|rewrite Nat.eqb_refl; reflexivity]).
    rewrite Hv. cbn [bind]. rewrite IH; [|exact H2|right; reflexivity]. cbn [List.length concat]. rewrite <- app_assoc. replace (S nr + List.length rows) with (nr + S (List.length rows)) by lia.
    destruct rows; reflexivity.
Qed.
Lemma loadtxt_go file d c dl k u m : loadtxt file d c dl k u m =
  bind (go number_field (at_most m (data_rows c (opt_text dl) u (skipn k (lines file)))) None 0 []) (fun r => Ok (table d r)).
Proof. unfold loadtxt. rewrite scan_go0. reflexivity. Qed.
Lemma genfromtxt_go file d c dl h f u ms fl m : genfromtxt file d c dl h f u ms fl m =
  bind (go (filled_field ms fl) (at_most m (data_rows c (opt_text dl) u (skipn h (firstn (List.length (lines file) - f) (lines file))))) None 0 []) (fun r => Ok (table d r)).
Proof. unfold genfromtxt. rewrite scan_go0. reflexivity. Qed.
(* a successful load, spelled out *)
Lemma load_inv d (field : bytes -> res spec_float) rows sh cells :
  bind (go field rows None 0 []) (fun r => Ok (table d r)) = Ok (sh, cells) ->
  (rows = [] /\ sh = [0; 0] /\ cells = []) \/
  exists n vals, rows <> [] /\ Forall2 (fun row vs => mapM field row = Ok vs) rows vals /\ Forall (fun row => List.length row = n) rows /\
    sh = (if n =? 1 then [List.length rows] else [List.length rows; n]) /\ cells = map (write_f64 d) (concat vals).
Proof.
  intros H. destruct (go field rows None 0 []) as [r| | |] eqn:EG; [|discriminate..]. cbn [bind] in H. apply go_ok in EG as (vals & F & E1 & E2 & EN).
  destruct r as [[nc nr] data]. cbn [fst snd] in *. subst nr data. cbn [Nat.add app] in H. unfold table in H. destruct rows as [|row rows].
  - left. cbn in H. injection H as <- <-. auto.
  - right. destruct EN as [HF ->]. cbn [List.length Nat.eqb] in H. exists (List.length row), vals. split; [discriminate|]. split; [exact F|]. split; [exact HF|].
    injection H as <- <-. split; reflexivity.
Qed.
Lemma load_of d field rows vals n : rows <> [] -> Forall2 (fun row vs => mapM field row = Ok vs) rows vals -> Forall (fun row => List.length row = n) rows ->
  bind (go field rows None 0 []) (fun r => Ok (table d r)) = Ok ((if n =? 1 then [List.length rows] else [List.length rows; n]), map (write_f64 d) (concat vals)).
Proof.
  intros NE F HL. rewrite (go_of field rows vals n F HL None 0 []) by (left; reflexivity). cbn [bind app Nat.add]. unfold table. destruct rows as [|row rows]; [congruence|]. reflexivity.
Qed.

(* ---- lines ---- *)
Lemma trim_spaces s t : spaces_ s -> trim (s ++ t) = trim t.
Proof. intros H. unfold trim. assert (trim_start (s ++ t) = trim_start t) as ->; [|reflexivity]. induction H as [|x s Hx _ IH]; [reflexivity|]. cbn [app trim_start]. rewrite Hx. exact IH. Qed.
Lemma trim_start_app l c : (trim_start (l ++ [c]) = trim_start l ++ [c]) \/ (trim_start l = [] /\ trim_start (l ++ [c]) = trim_start [c]).
Proof. induction l as [|x l IH]; [right; split; reflexivity|]. cbn [app trim_start]. destruct (is_space x); [exact IH|left; reflexivity]. Qed.
Lemma trim_end_space l c : is_space c = true -> trim (l ++ [c]) = trim l.
Proof.
  intros H. unfold trim. destruct (trim_start_app l c) as [->|[-> ->]].
  - rewrite rev_app_distr. cbn [rev app trim_start]. rewrite H. reflexivity.
  - cbn [trim_start]. rewrite H. reflexivity.
Qed.
Lemma trim_strip_cr l : trim (strip_cr l) = trim l.
Proof.
  unfold strip_cr. destruct (rev l) as [|c r] eqn:E; [reflexivity|]. destruct (Ascii.eqb_spec c cr) as [->|_]; [|reflexivity].
  assert (l = rev r ++ [cr]) as -> by (rewrite <- (rev_involutive l), E; reflexivity). symmetry. apply trim_end_space. reflexivity.
Qed.
Lemma data_rows_strip c dl u ls : data_rows c dl u (map strip_cr ls) = data_rows c dl u ls.
Proof. unfold data_rows, kept. rewrite map_map. rewrite (map_ext (fun x => trim (strip_cr x)) trim) by apply trim_strip_cr. reflexivity. Qed.
Lemma data_rows_app c dl u l m : data_rows c dl u (l ++ m) = data_rows c dl u l ++ data_rows c dl u m.
Proof. unfold data_rows, kept. rewrite map_app, filter_app, map_app. reflexivity. Qed.
Lemma data_rows_trim c dl u l m : map trim l = map trim m -> data_rows c dl u l = data_rows c dl u m.
Proof. intros H. unfold data_rows, kept. rewrite H. reflexivity. Qed.
Lemma no_data_ignored c l : solid_ c -> c <> [] -> no_data c l -> ignored c (trim l) = true.
Proof.
  intros S N [H|(s & t & -> & H)].
  - rewrite <- (app_nil_r l), trim_spaces by exact H. reflexivity.
  - rewrite trim_spaces by exact H. apply comment_ignored; assumption.
Qed.
Lemma no_data_rows c dl u ls : solid_ c -> c <> [] -> Forall (no_data c) ls -> data_rows c dl u ls = [].
Proof.
  intros S N H. unfold data_rows, kept. induction H as [|l ls Hl _ IH]; [reflexivity|]. cbn [map filter]. rewrite (no_data_ignored c l S N Hl). exact IH.
Qed.
Lemma blank_ignored c l : spaces_ l -> ignored c (trim l) = true.
Proof. intros H. rewrite <- (app_nil_r l), trim_spaces by exact H. reflexivity. Qed.
Lemma lines_file ls : Forall one_line ls -> lines (file_of ls) = map strip_cr ls.
Proof. apply lines_terminated. Qed.
Lemma lines_open ls l : Forall one_line ls -> one_line l -> l <> [] -> lines (file_of ls ++ l) = map strip_cr ls ++ [l].
Proof.
  intros H HL N. assert (split nl (file_of ls ++ l) = ls ++ [l]) as E.
  { induction H as [|x ls Hx _ IH].
    - cbn [file_of flat_map app]. clear N. induction l as [|c l IH]; [reflexivity|]. cbn [split]. destruct (Ascii.eqb_spec c nl) as [->|_]; [exfalso; apply HL; left; reflexivity|].
      rewrite IH by (intros X; apply HL; right; exact X). reflexivity.
    - cbn [file_of flat_map]. rewrite <- !app_assoc. change ([newline] ++ flat_map (fun l => l ++ [newline]) ls ++ l) with (nl :: file_of ls ++ l).
      rewrite split_line by exact Hx. rewrite IH. reflexivity. }
  unfold lines. rewrite E, removelast_last, last_last. destruct l; [congruence|reflexivity].
Qed.
Lemma load_lines file file' d c dl k u m k' : map trim (skipn k (lines file)) = map trim (skipn k' (lines file')) ->
  loadtxt file d c dl k u m = loadtxt file' d c dl k' u m.
Proof. intros H. rewrite !loadtxt_go. rewrite (data_rows_trim _ _ _ _ _ H). reflexivity. Qed.
Lemma skipn_map' {A B} (f : A -> B) k l : skipn k (map f l) = map f (skipn k l).
Proof. revert l. induction k as [|k IH]; intros l; [reflexivity|]. destruct l; [reflexivity|]. apply IH. Qed.
Lemma map_trim_strip ls : map trim (map strip_cr ls) = map trim ls.
Proof. rewrite map_map. apply map_ext, trim_strip_cr. Qed.
Lemma skipn_app_le {A} k (l m : list A) : k <= List.length l -> skipn k (l ++ m) = skipn k l ++ m.
Proof. intros H. rewrite skipn_app. replace (k - List.length l) with 0 by lia. reflexivity. Qed.

(* ---- selections ---- *)
Lemma choose_all u row n : Forall (fun j => j < n) u -> List.length row = n -> exists r, choose_cols (Some u) row = r /\ List.length r = List.length u /\
  forall j c, nth_error u j = Some c -> nth_error r j = nth_error row c.
Proof.
  intros H HL. eexists. split; [reflexivity|]. cbn [choose_cols]. induction H as [|c u Hc _ [IH1 IH2]]; [split; [reflexivity|intros [|j] c X; discriminate]|].
  cbn [filter_map]. destruct (nth_error row c) as [x|] eqn:E; [|apply nth_error_None in E; lia]. cbn [List.length]. split; [rewrite IH1; reflexivity|].
  intros [|j] c' X; [injection X as <-; symmetry; exact E|]. apply IH2. exact X.
Qed.
Lemma mapM_nth {A B} (f : A -> res B) l vs j x : mapM f l = Ok vs -> nth_error l j = Some x -> exists v, nth_error vs j = Some v /\ f x = Ok v.
Proof.
  revert vs j. induction l as [|y l IH]; intros vs j H X; [destruct j; discriminate|]. cbn [mapM] in H. destruct (f y) as [v| | |] eqn:E; [|discriminate..].
  cbn [bind] in H. destruct (mapM f l) as [vs'| | |] eqn:EL; [|discriminate..]. cbn [bind] in H. injection H as <-. destruct j as [|j].
  - injection X as <-. exists v. split; [reflexivity|exact E].
  - apply (IH vs' j eq_refl X).
Qed.
Lemma mapM_len {A B} (f : A -> res B) l vs : mapM f l = Ok vs -> List.length vs = List.length l.
Proof.
  revert vs. induction l as [|y l IH]; intros vs H; cbn [mapM] in H; [injection H as <-; reflexivity|]. destruct (f y); [|discriminate..].
  cbn [bind] in H. destruct (mapM f l) as [vs'| | |]; [|discriminate..]. cbn [bind] in H. injection H as <-. cbn. rewrite (IH vs' eq_refl). reflexivity.
Qed.
Lemma concat_nth {A} (ls : list (list A)) n i j : Forall (fun l => List.length l = n) ls -> j < n -> i < List.length ls ->
  nth_error (concat ls) (i * n + j) = match nth_error ls i with Some l => nth_error l j | None => None end.
Proof.
  intros H Hj. revert i. induction H as [|l ls Hl _ IH]; intros i Hi; [cbn in Hi; lia|]. cbn [concat]. destruct i as [|i].
  - cbn [Nat.mul Nat.add nth_error]. apply nth_error_app1. lia.
  - cbn [nth_error]. cbn [List.length] in Hi. rewrite nth_error_app2 by (cbn [Nat.mul]; lia). rewrite <- IH by lia. f_equal. cbn [Nat.mul]. lia.
Qed.
Lemma Forall2_nth' {A B} (P : A -> B -> Prop) l m i x : Forall2 P l m -> nth_error l i = Some x -> exists y, nth_error m i = Some y /\ P x y.
Proof. intros H. revert i. induction H as [|a b l m Hab _ IH]; intros i X; destruct i; try discriminate; [injection X as <-; exists b; auto|apply IH; exact X]. Qed.
Lemma Forall2_len {A B} (P : A -> B -> Prop) l m : Forall2 P l m -> List.length l = List.length m.
Proof. induction 1; cbn; congruence. Qed.
