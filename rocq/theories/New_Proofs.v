From Coq Require Import SpecFloat.
From Verif Require Import Base Lists Int_Model Int_Proofs F64_Model F64_Proofs Arr_Spec Arr_Model Arr_Wf Arr_Proofs Rng_Model Date_Model SF_Proofs SF_Arith New_Spec New_Model Span_Spec Span_Model Span_Proofs.

Ltac ssplit := repeat match goal with |- _ /\ _ => split end.

(* ---- leaves of a rectangular nested list ---- *)
Fixpoint leaves (o : py) : list py :=
  match o with PList l => flat_map leaves l | _ => [o] end.

Lemma rect_list_inv o n sh : rect o (n :: sh) ->
  (o = PList [] /\ n = 0 /\ sh = []) \/ exists l, o = PList l /\ l <> [] /\ length l = n /\ Forall (fun x => rect x sh) l.
Proof. intro H. inversion H; subst; [now left|right; eauto 6]. Qed.
Lemma rect_nil_inv o : rect o [] -> is_leaf o.
Proof. intro H. inversion H; subst. assumption. Qed.
Lemma leaf_leaves o : is_leaf o -> leaves o = [o].
Proof. destruct o; cbn; tauto. Qed.

Lemma leaves_length sh : forall o, rect o sh -> length (leaves o) = prod sh.
Proof.
  induction sh as [|n sh IH]; intros o H.
  - rewrite leaf_leaves by (now apply rect_nil_inv). reflexivity.
  - destruct (rect_list_inv o n sh H) as [(-> & -> & ->)|(l & -> & _ & <- & F)]; [reflexivity|].
    cbn [leaves prod]. apply flat_map_const_length. intros x Hx. apply IH. rewrite Forall_forall in F. now apply F.
Qed.
Lemma nth_flat {A B} (f : A -> list B) p : forall l i k x, (forall x, In x l -> length (f x) = p) -> nth_error l i = Some x -> k < p ->
  nth_error (flat_map f l) (i * p + k) = nth_error (f x) k.
Proof.
  induction l as [|y l IH]; intros i k x HL Hi Hk; [destruct i; discriminate|].
  cbn [flat_map]. destruct i as [|i]; cbn [nth_error] in Hi.
  - injection Hi as ->. rewrite nth_error_app1; [reflexivity|]. rewrite HL by (now left). exact Hk.
  - rewrite nth_error_app2; rewrite (HL y) by (now left); [|cbn; lia].
    replace (S i * p + k - p) with (i * p + k) by lia. apply IH; [|exact Hi|exact Hk]. intros z Hz. apply HL. now right.
Qed.
Lemma leaves_at sh : forall o idx, rect o sh -> inb idx sh -> nth_error (leaves o) (rank sh idx) = at_ o idx.
Proof.
  induction sh as [|n sh IH]; intros o idx H Hi.
  - destruct idx; [|inversion Hi]. rewrite leaf_leaves by (now apply rect_nil_inv). reflexivity.
  - destruct idx as [|i idx]; [inversion Hi|]. apply inb_cons in Hi. destruct Hi as [Hi Hx].
    destruct (rect_list_inv o n sh H) as [(_ & -> & _)|(l & -> & _ & <- & F)]; [lia|]. rewrite Forall_forall in F.
    destruct (nth_error l i) as [x|] eqn:Ex; [|apply nth_error_None in Ex; lia].
    cbn [leaves rank at_]. rewrite Ex, (nth_flat leaves (prod sh) l i (rank sh idx) x).
    + apply IH; [apply F; now apply nth_error_In in Ex|exact Hx].
    + intros y Hy. apply leaves_length. now apply F.
    + exact Ex.
    + now apply rank_lt.
Qed.
Lemma leaves_in sh o v : rect o sh -> In v (leaves o) -> exists idx, inb idx sh /\ at_ o idx = Some v.
Proof.
  intros H Hv. apply In_nth_error in Hv. destruct Hv as [k Hk].
  assert (k < prod sh) as L. { rewrite <- (leaves_length sh o H). apply nth_error_Some. congruence. }
  exists (unrank sh k). split; [now apply unrank_inb|]. rewrite <- (leaves_at sh o) by (assumption || now apply unrank_inb). now rewrite rank_unrank.
Qed.
Lemma at_leaf sh o idx : rect o sh -> inb idx sh -> exists v, at_ o idx = Some v /\ In v (leaves o).
Proof.
  intros H Hi. rewrite <- (leaves_at sh o idx H Hi). pose proof (rank_lt sh idx Hi) as L. rewrite <- (leaves_length sh o H) in L.
  destruct (nth_error (leaves o) (rank sh idx)) as [v|] eqn:E; [|apply nth_error_None in E; lia]. exists v. split; [reflexivity|]. now apply nth_error_In in E.
Qed.

(* ---- dtype inference ---- *)
Lemma infer_leaves sh : forall o, rect o sh -> infer o = match leaves o with [] => LF64 | v :: _ => infer v end.
Proof.
  induction sh as [|n sh IH]; intros o H.
  - rewrite leaf_leaves by (now apply rect_nil_inv). reflexivity.
  - destruct (rect_list_inv o n sh H) as [(-> & -> & ->)|(l & -> & Hl & <- & F)]; [reflexivity|].
    destruct l as [|x l]; [contradiction|]. rewrite Forall_forall in F. cbn [infer leaves flat_map].
    rewrite (IH x (F x (or_introl eq_refl))). destruct (leaves x) as [|v lv] eqn:Ex; [|reflexivity].
    (* the first item has no leaves: no item has *)
    assert (prod sh = 0) as P0. { rewrite <- (leaves_length sh x (F x (or_introl eq_refl))), Ex. reflexivity. }
    assert (flat_map leaves l = []) as ->; [|reflexivity].
    apply length_zero_iff_nil. rewrite (flat_map_const_length leaves l 0); [lia|].
    intros y Hy. rewrite (leaves_length sh y); [exact P0|]. apply F. now right.
Qed.
Lemma infer_natural v d : natural v d -> infer v = d.
Proof. destruct v; cbn [natural infer]; try contradiction; intuition congruence. Qed.

(* ---- flattening ---- *)
Section Flatten.
  Context {A : Type} (ex : py -> option A).
  Fixpoint go (l : list py) (shape : list nat) (data : list A) : option (list nat * list A) :=
    match l with
    | [] => Some (shape, data)
    | x :: l' =>
        match x with
        | PList _ =>
            match flatten ex x with
            | Some (s, d) => go l' (if length shape =? 1 then shape ++ s else shape) (data ++ d)
            | None => None
            end
        | _ => match ex x with Some v => go l' shape (data ++ [v]) | None => None end
        end
    end.
  Lemma flatten_go l : flatten ex (PList l) = go l [length l] [].
  Proof. reflexivity. Qed.

  Lemma all_some_app l1 l2 : all_some ex (l1 ++ l2) = match all_some ex l1, all_some ex l2 with Some a, Some b => Some (a ++ b) | _, _ => None end.
  Proof.
    induction l1 as [|x l1 IH]; cbn [all_some app]; [now destruct (all_some ex l2)|].
    rewrite IH. destruct (ex x), (all_some ex l1), (all_some ex l2); reflexivity.
  Qed.
  Lemma go_leaves : forall l shape data vals, Forall is_leaf l -> all_some ex l = Some vals -> go l shape data = Some (shape, data ++ vals).
  Proof.
    induction l as [|x l IH]; intros shape data vals F E.
    - cbn in E. injection E as <-. now rewrite app_nil_r.
    - inversion F; subst. cbn [all_some] in E. destruct (ex x) as [v|] eqn:Ev; [|discriminate]. destruct (all_some ex l) as [vs|] eqn:El; [|discriminate].
      injection E as <-. cbn [go]. destruct x; try contradiction; rewrite Ev, (IH shape (data ++ [v]) vs) by (assumption || reflexivity); now rewrite <- app_assoc.
  Qed.
  Lemma go_lists sh : sh <> [] -> (forall o vals, rect o sh -> all_some ex (leaves o) = Some vals -> flatten ex o = Some (sh, vals)) ->
    forall l shape data vals, Forall (fun x => rect x sh) l -> all_some ex (flat_map leaves l) = Some vals -> length shape <> 0 ->
    go l shape data = Some (if (length shape =? 1) && negb (length l =? 0) then shape ++ sh else shape, data ++ vals).
  Proof.
    intros Hne IH. induction l as [|x l IHl]; intros shape data vals F E Hs.
    - cbn in E. injection E as <-. rewrite app_nil_r, andb_false_r. reflexivity.
    - inversion F as [|? ? Hx Fl]; subst. cbn [flat_map] in E. rewrite all_some_app in E.
      destruct (all_some ex (leaves x)) as [v|] eqn:Ev; [|discriminate]. destruct (all_some ex (flat_map leaves l)) as [vs|] eqn:El; [|discriminate].
      injection E as <-.
      assert (exists lx, x = PList lx) as [lx ->].
      { destruct sh as [|n sh]; [contradiction|]. destruct (rect_list_inv x n sh Hx) as [(-> & _)|(lx & -> & _)]; eauto. }
      cbn [go length]. rewrite (IH (PList lx) v Hx Ev). rewrite (IHl _ _ vs Fl eq_refl).
      + rewrite <- app_assoc. f_equal. f_equal. rewrite andb_true_r.
        destruct (length shape =? 1) eqn:E1; [|rewrite E1; reflexivity].
        apply Nat.eqb_eq in E1. rewrite app_length, E1. destruct (1 + length sh =? 1) eqn:E2; [|reflexivity].
        apply Nat.eqb_eq in E2. destruct sh; [contradiction|discriminate E2].
      + destruct (length shape =? 1); [rewrite app_length; lia|exact Hs].
  Qed.
  Lemma flatten_rect sh : forall o vals, sh <> [] -> rect o sh -> all_some ex (leaves o) = Some vals -> flatten ex o = Some (sh, vals).
  Proof.
    induction sh as [|n sh IH]; intros o vals Hne H E; [contradiction|].
    destruct (rect_list_inv o n sh H) as [(-> & -> & ->)|(l & -> & Hl & <- & F)].
    - cbn in E. injection E as <-. reflexivity.
    - rewrite flatten_go. destruct sh as [|m sh].
      + assert (Forall is_leaf l) as FL by (revert F; apply Forall_impl; intros; now apply rect_nil_inv).
        assert (flat_map leaves l = l) as EL.
        { clear - FL. induction FL as [|x l Hx _ IH]; [reflexivity|]. cbn [flat_map]. rewrite leaf_leaves by exact Hx. cbn [app]. now rewrite IH. }
        cbn [leaves] in E. rewrite EL in E. rewrite (go_leaves l _ _ vals FL E). reflexivity.
      + rewrite (go_lists (m :: sh) ltac:(discriminate) (fun o vals => IH o vals ltac:(discriminate)) l [length l] [] vals F E ltac:(discriminate)).
        cbn [length app Nat.eqb andb]. destruct l; [contradiction|]. reflexivity.
  Qed.
End Flatten.

Lemma all_some_spec {A B} (f : A -> option B) (P : A -> B -> Prop) l : (forall x, In x l -> exists y, f x = Some y /\ P x y) ->
  exists ys, all_some f l = Some ys /\ Forall2 P l ys.
Proof.
  induction l as [|x l IH]; intro H; [exists []; split; [reflexivity|constructor]|].
  destruct (H x (or_introl eq_refl)) as (y & Ey & Py). destruct IH as (ys & Es & Ps); [intros z Hz; apply H; now right|].
  exists (y :: ys). cbn [all_some]. rewrite Ey, Es. split; [reflexivity|]. now constructor.
Qed.
Lemma Forall2_nth {A B} (P : A -> B -> Prop) l l' n x : Forall2 P l l' -> nth_error l n = Some x -> exists y, nth_error l' n = Some y /\ P x y.
Proof.
  intro F. revert n x. induction F as [|a b l l' H F IH]; intros n x E; [destruct n; discriminate|].
  destruct n; cbn in *; [injection E as <-; eauto|eauto].
Qed.

(* ---- the new array ---- *)
Lemma shaped_ok d (data : list cell) sh : (0 < ld_item d)%Z -> (Z.of_nat (length data) * ld_item d < 2 ^ 63)%Z -> length data = prod sh ->
  let r := from_cells_with_shape d data sh in
  fst r = data /\ a_shape (snd r) = sh /\ wf data (snd r) /\ a_item (snd r) = ld_item d /\
  forall idx, inb idx sh -> get data (snd r) idx = nth_error data (rank sh idx).
Proof.
  intros Hi Hb HL r. pose proof (fresh_wf data [length data] (ld_item d) Hi Hb ltac:(cbn; lia)) as W.
  destruct (reshape_c_is_view data (fresh [length data] (ld_item d)) sh W eq_refl ltac:(cbn [fresh a_shape prod]; lia)) as (a' & E & S' & W' & G).
  unfold r, from_cells_with_shape, from_cells. rewrite E. cbn [fst snd]. ssplit; try assumption; try reflexivity.
  - unfold reshape in E. destruct (negb _); [discriminate|]. destruct (_ && _); [discriminate|]. injection E as <-. reflexivity.
  - intros idx Hx. destruct (G idx Hx) as [_ ->]. rewrite fresh_get by exact Hi.
    change rm_rank with rank. change rm_unrank with unrank. cbn [fresh a_shape unrank prod rank]. rewrite Nat.div_1_r. f_equal. lia.
Qed.
Lemma flat_ok d (data : list cell) : (0 < ld_item d)%Z -> (Z.of_nat (length data) * ld_item d < 2 ^ 63)%Z ->
  let r := from_cells d data in
  fst r = data /\ a_shape (snd r) = [length data] /\ wf data (snd r) /\ a_item (snd r) = ld_item d /\
  forall idx, inb idx [length data] -> get data (snd r) idx = nth_error data (rank [length data] idx).
Proof.
  intros Hi Hb r. unfold r, from_cells. cbn [fst snd]. ssplit; try reflexivity; [apply fresh_wf; try assumption; cbn; lia|]. intros idx Hx. now apply fresh_get.
Qed.

(* how a value that fits is converted *)
Definition conv (d : ldt) (v : py) (c : cell) : Prop :=
  match d with
  | LInt t => exists z, extract_i64 v = Some z /\ c = write_i64 d z
  | _ => exists f, extract_f64 v = Some f /\ c = write_f64 d f
  end.
(* the integers that survive: inside the dtype and inside i64 *)
Definition fits64 (d : ldt) (v : py) : Prop :=
  fits d v /\ match d, v with LInt _, PInt z => representable i64_ty z | _, _ => True end.

Lemma std_ity t : std_int t -> ity_ok t.
Proof. unfold std_int, ity_ok. lia. Qed.
Lemma extract_i64_ok z : representable i64_ty z -> extract_i64 (PInt z) = Some z.
Proof.
  intro H. unfold representable, i64_ty, i_min, i_max in H. cbn [signed bits] in H. change (64 - 1)%Z with 63%Z in H. cbn [extract_i64].
  assert ((- 2 ^ 63 <=? z)%Z = true) as -> by (apply Z.leb_le; lia). assert ((z <? 2 ^ 63)%Z = true) as -> by (apply Z.ltb_lt; lia). reflexivity.
Qed.
Lemma fits_conv d v : std d -> fits64 d v -> exists c, conv d v c /\ stores d v c.
Proof.
  intros Hd [HF H64]. destruct d as [t| |]; cbn [fits] in HF.
  - destruct v as [z|b|f| |l]; try contradiction. exists (CInt z). split.
    + exists z. split; [now apply extract_i64_ok|]. cbn [write_i64]. now rewrite wrap_id by (assumption || now apply std_ity).
    + split; [exact HF|reflexivity].
  - destruct v as [z|b|f| |l]; try contradiction. exists (CInt (if b then 1 else 0)%Z). split; [|reflexivity].
    exists (f64_int (if b then 1 else 0)%Z). split; [reflexivity|]. destruct b; reflexivity.
  - destruct v as [z|b|f| |l]; try contradiction.
    + exists (CFlt (f64_int z)). split.
      * exists (f64_int z). split; [|reflexivity]. cbn [extract_f64]. destruct (f64_int_fin z HF) as [->|(s & m & e & ->)]; reflexivity.
      * cbn [stores]. now apply f64_int_is.
    + exists (CFlt f). split; [|reflexivity]. exists f. split; reflexivity.
Qed.

Lemma Forall2_map_r {A B C} (P : A -> C -> Prop) (g : B -> C) l l' : Forall2 (fun x y => P x (g y)) l l' -> Forall2 P l (map g l').
Proof. induction 1; constructor; assumption. Qed.

(* every leaf is converted: the data vector holds the converted leaves in order *)
Lemma all_conv d o : std d -> (forall v, In v (leaves o) -> fits64 d v) ->
  match d with
  | LInt _ => exists zs, all_some extract_i64 (leaves o) = Some zs /\ Forall2 (stores d) (leaves o) (map (write_i64 d) zs)
  | _ => exists fs, all_some extract_f64 (leaves o) = Some fs /\ Forall2 (stores d) (leaves o) (map (write_f64 d) fs)
  end.
Proof.
  intros Hd HF.
  destruct d as [t| |].
  - destruct (all_some_spec extract_i64 (fun v z => stores (LInt t) v (write_i64 (LInt t) z)) (leaves o)) as (zs & E & P).
    { intros v Hv. destruct (fits_conv _ v Hd (HF v Hv)) as (c & (z & Ez & ->) & Hs). eauto. }
    exists zs. split; [exact E|]. now apply Forall2_map_r.
  - destruct (all_some_spec extract_f64 (fun v z => stores LBool v (write_f64 LBool z)) (leaves o)) as (zs & E & P).
    { intros v Hv. destruct (fits_conv _ v Hd (HF v Hv)) as (c & (z & Ez & ->) & Hs). eauto. }
    exists zs. split; [exact E|]. now apply Forall2_map_r.
  - destruct (all_some_spec extract_f64 (fun v z => stores LF64 v (write_f64 LF64 z)) (leaves o)) as (zs & E & P).
    { intros v Hv. destruct (fits_conv _ v Hd (HF v Hv)) as (c & (z & Ez & ->) & Hs). eauto. }
    exists zs. split; [exact E|]. now apply Forall2_map_r.
Qed.

Definition dtype_choice (dtype : option ldt) (o : py) (d : ldt) : Prop :=
  match dtype with Some d' => d' = d | None => infer o = d end.

Lemma first_list l n sh : l <> [] -> Forall (fun x => rect x (n :: sh)) l -> exists x l', l = x :: l' /\ is_list x = true.
Proof.
  intros Hl F. destruct l as [|x l]; [contradiction|]. inversion F; subst. exists x, l. split; [reflexivity|].
  destruct (rect_list_inv x n sh H1) as [(-> & _)|(lx & -> & _)]; reflexivity.
Qed.

Lemma array_ok dtype o n sh d : rect o (n :: sh) -> std d -> dtype_choice dtype o d ->
  (forall v, In v (leaves o) -> fits64 d v) -> (Z.of_nat (prod (n :: sh)) * ld_item d < 2 ^ 63)%Z ->
  exists data a, array_of_list dtype o = Ok (d, (data, a)) /\ a_shape a = n :: sh /\ wf data a /\ a_item a = ld_item d /\
    Forall2 (stores d) (leaves o) data /\
    forall idx, inb idx (n :: sh) -> get data a idx = nth_error data (rank (n :: sh) idx).
Proof.
  intros R Hd HC HF HB. pose proof (ld_item_pos d Hd) as Hi. assert (0 < ld_item d)%Z as Hi0 by lia.
  pose proof (leaves_length _ o R) as HL. pose proof (all_conv d o Hd HF) as AC.
  assert (match dtype with Some d' => d' | None => infer o end = d) as Ed by (destruct dtype; exact HC).
  destruct (rect_list_inv o n sh R) as [(-> & -> & ->)|(l & -> & Hl & En & F)].
  { cbn [array_of_list from_list]. rewrite Ed. exists [], (fresh [0] (ld_item d)). split; [reflexivity|].
    destruct (flat_ok d [] Hi0 ltac:(cbn; lia)) as (_ & S1 & W & I1 & G). cbn [from_cells fst snd length] in *.
    ssplit; try assumption. constructor. }
  cbn [array_of_list]. unfold from_list. cbv zeta. rewrite Ed. clear Ed HC.
  destruct sh as [|m sh].
  - (* one dimension *)
    assert (Forall is_leaf l) as FL by (revert F; apply Forall_impl; intros; now apply rect_nil_inv).
    assert (leaves (PList l) = l) as EL.
    { cbn [leaves]. clear - FL. induction FL as [|x l Hx _ IH]; [reflexivity|]. cbn [flat_map]. rewrite leaf_leaves by exact Hx. cbn [app]. now rewrite IH. }
    rewrite EL in *. destruct l as [|x l']; [contradiction|]. inversion FL; subst.
    assert (is_list x = false) as -> by (destruct x; cbn in *; tauto).
    assert (forall data, Forall2 (stores d) (x :: l') data -> exists a, from_cells d data = (data, a) /\ a_shape a = [length (x :: l')] /\ wf data a /\ a_item a = ld_item d /\
        forall idx, inb idx [length (x :: l')] -> get data a idx = nth_error data (rank [length (x :: l')] idx)) as K.
    { intros data P. pose proof (Forall2_len _ _ _ P) as LD. exists (snd (from_cells d data)).
      cbn [prod] in HB. rewrite Nat.mul_1_r in HB. destruct (flat_ok d data Hi0 ltac:(rewrite <- LD; exact HB)) as (F1 & S1 & W & I1 & G). rewrite <- LD in *. ssplit; first [assumption|reflexivity]. }
    destruct d as [t| |]; destruct AC as (zs & E & P); rewrite E; destruct (K _ P) as (a & EA & S1 & W & I1 & G); rewrite EA;
      eexists _, a; ssplit; first [eassumption|reflexivity].
  - (* nested *)
    destruct (first_list l m sh Hl F) as (x & l' & -> & Hx). rewrite Hx.
    assert (forall data, Forall2 (stores d) (leaves (PList (x :: l'))) data -> exists a, from_cells_with_shape d data (n :: m :: sh) = (data, a) /\ a_shape a = n :: m :: sh /\ wf data a /\ a_item a = ld_item d /\
        forall idx, inb idx (n :: m :: sh) -> get data a idx = nth_error data (rank (n :: m :: sh) idx)) as K.
    { intros data P. pose proof (Forall2_len _ _ _ P) as LD. exists (snd (from_cells_with_shape d data (n :: m :: sh))).
      destruct (shaped_ok d data (n :: m :: sh) Hi0 ltac:(rewrite <- LD, HL; exact HB) ltac:(rewrite <- LD; exact HL)) as (F1 & S1 & W & I1 & G).
      split; [|ssplit; assumption]. destruct (from_cells_with_shape d data (n :: m :: sh)); cbn in *; now subst. }
    destruct d as [t| |]; destruct AC as (zs & E & P).
    + rewrite (flatten_rect extract_i64 (n :: m :: sh) _ zs ltac:(discriminate) R E). destruct (K _ P) as (a & EA & S1 & W & I1 & G). rewrite EA. eexists _, a. ssplit; first [eassumption|reflexivity].
    + rewrite (flatten_rect extract_f64 (n :: m :: sh) _ zs ltac:(discriminate) R E). destruct (K _ P) as (a & EA & S1 & W & I1 & G). rewrite EA. eexists _, a. ssplit; first [eassumption|reflexivity].
    + rewrite (flatten_rect extract_f64 (n :: m :: sh) _ zs ltac:(discriminate) R E). destruct (K _ P) as (a & EA & S1 & W & I1 & G). rewrite EA. eexists _, a. ssplit; first [eassumption|reflexivity].
Qed.

(* ---- tolist ---- *)
Lemma build_ok d buf a : forall sh idx, (forall jdx, inb jdx sh -> exists c, get buf a (idx ++ jdx) = Some c) ->
  exists o, build_list d buf a idx sh = Ok o /\ nests sh o /\
    forall jdx, inb jdx sh -> exists c, get buf a (idx ++ jdx) = Some c /\ at_ o jdx = Some (read_py d c).
Proof.
  induction sh as [|n sh IH]; intros idx H.
  - destruct (H [] ltac:(constructor)) as (c & E). rewrite app_nil_r in E. cbn [build_list]. rewrite E. cbn [of_load bind].
    eexists; split; [reflexivity|]. split; [destruct d, c; exact I|]. intros jdx Hj. inversion Hj; subst. rewrite app_nil_r. eauto.
  - assert (forall i, i < n -> exists o, build_list d buf a (idx ++ [i]) sh = Ok o /\ nests sh o /\
        forall jdx, inb jdx sh -> exists c, get buf a (idx ++ i :: jdx) = Some c /\ at_ o jdx = Some (read_py d c)) as K.
    { intros i Hi. destruct (IH (idx ++ [i])) as (o & E & N & G).
      - intros jdx Hj. rewrite <- app_assoc. apply (H (i :: jdx)). apply inb_cons. now split.
      - exists o. split; [exact E|]. split; [exact N|]. intros jdx Hj. destruct (G jdx Hj) as (c & E1 & E2). rewrite <- app_assoc in E1. eauto. }
    assert (exists l, mapM (fun i => build_list d buf a (idx ++ [i]) sh) (seq 0 n) = Ok l /\ length l = n /\
        forall i, i < n -> exists o, nth_error l i = Some o /\ nests sh o /\
          forall jdx, inb jdx sh -> exists c, get buf a (idx ++ i :: jdx) = Some c /\ at_ o jdx = Some (read_py d c)) as (l & E & L & G).
    { clear - K. induction n as [|n IH]; [exists []; ssplit; try reflexivity; intros; lia|].
      destruct IH as (l & E & L & G); [intros i Hi; apply K; lia|]. destruct (K n (Nat.lt_succ_diag_r n)) as (o & E1 & N1 & G1).
      exists (l ++ [o]). rewrite seq_S, mapM_app, E. cbn [mapM bind Nat.add]. rewrite E1. cbn [bind]. split; [reflexivity|]. split; [rewrite app_length; cbn; lia|].
      intros i Hi. destruct (Nat.eq_dec i n) as [->|Ni].
      - exists o. rewrite nth_error_app2, L, Nat.sub_diag by lia. ssplit; first [assumption|reflexivity].
      - destruct (G i ltac:(lia)) as (o' & E' & R'). exists o'. rewrite nth_error_app1 by lia. now split. }
    exists (PList l). cbn [build_list]. rewrite E. cbn [bind]. split; [reflexivity|]. split.
    + exists l. split; [reflexivity|]. split; [exact L|]. apply Forall_forall. intros o Ho. apply In_nth_error in Ho. destruct Ho as [i Ei].
      assert (i < n) as Hi by (rewrite <- L; apply nth_error_Some; congruence). destruct (G i Hi) as (o' & E' & N' & _). congruence.
    + intros jdx Hj. destruct jdx as [|i jdx]; [inversion Hj|]. apply inb_cons in Hj. destruct Hj as [Hi Hj].
      destruct (G i Hi) as (o & Eo & _ & Go). destruct (Go jdx Hj) as (c & E1 & E2). exists c. split; [exact E1|]. cbn [at_]. now rewrite Eo.
Qed.
Lemma tolist_ok d buf a : wf buf a -> exists o, tolist d buf a = Ok o /\ nests (a_shape a) o /\
  forall idx, inb idx (a_shape a) -> exists c, get buf a idx = Some c /\ at_ o idx = Some (read_py d c).
Proof. intros (_ & _ & _ & _ & G & _). unfold tolist. apply build_ok. exact G. Qed.

(* nested lists with the same nesting and the same leaves are equal *)
Lemma nests_ext sh : forall o o', nests sh o -> nests sh o' -> (forall idx, inb idx sh -> at_ o idx = at_ o' idx) -> o = o'.
Proof.
  induction sh as [|n sh IH]; intros o o' N N' H.
  - specialize (H [] ltac:(constructor)). cbn in H. congruence.
  - destruct N as (l & -> & L & F). destruct N' as (l' & -> & L' & F'). f_equal.
    apply nth_error_ext. intro i. destruct (Nat.lt_ge_cases i n) as [Hi|Hi].
    + destruct (nth_error l i) as [x|] eqn:E; [|apply nth_error_None in E; lia]. destruct (nth_error l' i) as [x'|] eqn:E'; [|apply nth_error_None in E'; lia].
      f_equal. rewrite Forall_forall in F, F'. apply IH; [apply F; now apply nth_error_In in E|apply F'; now apply nth_error_In in E'|].
      intros idx Hx. specialize (H (i :: idx) ltac:(apply inb_cons; now split)). cbn [at_] in H. now rewrite E, E' in H.
    + rewrite (proj2 (nth_error_None l i)), (proj2 (nth_error_None l' i)) by lia. reflexivity.
Qed.
Lemma rect_nests sh : forall o, rect o sh -> nests sh o.
Proof.
  induction sh as [|n sh IH]; intros o H; [now apply rect_nil_inv|].
  destruct (rect_list_inv o n sh H) as [(-> & -> & ->)|(l & -> & Hl & <- & F)].
  - exists []. ssplit; try reflexivity. constructor.
  - exists l. ssplit; try reflexivity. revert F. apply Forall_impl. exact IH.
Qed.
Lemma nests_rect sh : forall o, prod sh <> 0 -> nests sh o -> rect o sh.
Proof.
  induction sh as [|n sh IH]; intros o Hp H; [now constructor|].
  destruct H as (l & -> & <- & F). cbn [prod] in Hp. constructor; [intros ->; cbn in Hp; lia|]. revert F. apply Forall_impl. intros x Hx. apply IH; [lia|exact Hx].
Qed.
