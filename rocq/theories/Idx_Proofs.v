(* Proofs about subscripts and assignment. *)
From Verif Require Import Base Lists Arr_Spec Arr_Model Arr_Wf Arr_Proofs Arr_Hist
  Idx_Spec Idx_Model Idx_Wf.
Local Open Scope nat_scope.

(* ---------- views compose ---------- *)
Lemma is_view_refl {V} (buf : list V) a f :
  wf buf a -> (forall idx, inb idx (a_shape a) -> f idx = idx) -> is_view buf a a (a_shape a) f.
Proof.
  intros W H. split; [reflexivity|]. split; [exact W|]. intros idx Hi. rewrite H by exact Hi. auto.
Qed.

Lemma is_view_trans {V} (buf : list V) a b c sh sh' f g h :
  is_view buf a b sh f -> is_view buf b c sh' g ->
  (forall idx, inb idx sh' -> h idx = f (g idx)) -> is_view buf a c sh' h.
Proof.
  intros (S1 & W1 & G1) (S2 & W2 & G2) E. split; [exact S2|]. split; [exact W2|].
  intros idx Hi. rewrite E by exact Hi. destruct (G2 idx Hi) as [I2 E2]. rewrite S1 in I2.
  destruct (G1 _ I2) as [I1 E1]. split; [exact I1|congruence].
Qed.

(* ---------- python slices ---------- *)
Lemma py_count_spec b e st j :
  st <> 0%Z -> (j < py_count b e st <-> in_slice b e st j).
Proof.
  intros H. unfold py_count, in_slice. destruct (Z.gtb_spec st 0).
  - split.
    + intros Hj. left. split; [lia|].
      assert (Z.of_nat j + 1 <= (e - b + st - 1) / st)%Z by lia.
      pose proof (Z.mul_div_le (e - b + st - 1) st ltac:(lia)). nia.
    + intros [[_ Hj]|[? _]]; [|lia].
      assert (Z.of_nat j + 1 <= (e - b + st - 1) / st)%Z by (apply Z.div_le_lower_bound; nia). lia.
  - split.
    + intros Hj. right. split; [lia|].
      assert (Z.of_nat j + 1 <= (b - e - st - 1) / - st)%Z by lia.
      pose proof (Z.mul_div_le (b - e - st - 1) (- st) ltac:(lia)). nia.
    + intros [[? _]|[_ Hj]]; [lia|].
      assert (Z.of_nat j + 1 <= (b - e - st - 1) / - st)%Z by (apply Z.div_le_lower_bound; nia). lia.
Qed.

Lemma py_indices_py_slice b e st s b' e' :
  st <> 0%Z -> py_indices b e st (Z.of_nat s) = (b', e') -> py_slice s b' e' st.
Proof.
  unfold py_indices, py_slice, py_clamp. intros H E.
  destruct (Z.ltb_spec st 0); injection E as <- <-.
  - right. split; [lia|]. split; [destruct b as [z|]|destruct e as [z|]]; try lia;
      destruct (Z.ltb_spec z 0); lia.
  - left. split; [lia|]. split; [destruct b as [z|]|destruct e as [z|]]; try lia;
      destruct (Z.ltb_spec z 0); lia.
Qed.

Ltac bd := repeat match goal with
  | |- context [if ?c then _ else _] => let E := fresh "E" in destruct c eqn:E end; cbv beta iota in *; try lia.
Ltac bdh := repeat match goal with
  | H : context [if ?c then _ else _] |- _ => let E := fresh "E" in destruct c eqn:E end.

Lemma pos_stop (b x y : Z) (F : Z -> Z) :
  (0 <= b)%Z -> (x = y \/ (x <= 0 /\ y <= 0))%Z ->
  (if (x >? b)%Z then F x else 0%Z) = (if (y >? b)%Z then F y else 0%Z).
Proof. intros H [->|[H1 H2]]; [reflexivity|]. bd. Qed.

Lemma neg_stop (b x y s : Z) (F : Z -> res Z) (d : res Z) :
  (b < s)%Z -> (x = y \/ (s - 1 <= x /\ s - 1 <= y))%Z ->
  (if (b >? x)%Z then F x else d) = (if (b >? y)%Z then F y else d).
Proof. intros H [->|[H1 H2]]; [reflexivity|]. bd; reflexivity. Qed.

(* normalize_slice agrees with slice.indices up to an irrelevant stop *)
Lemma normalize_slice_ok b e st s b' e' :
  slice_ok b e st s = true -> (Z.of_nat s <= isize_max)%Z ->
  py_indices b e st (Z.of_nat s) = (b', e') ->
  exists e2,
    normalize_slice (default_z isize_min (extract_ok b)) (default_z isize_max (extract_ok e))
                    (default_z 1 (extract_ok (Some st))) (Z.of_nat s) = (b', e2) /\
    slice_len b' e2 st = slice_len b' e' st /\ default_z 1 (extract_ok (Some st)) = st.
Proof.
  unfold slice_ok. intros HO Hs HP.
  apply andb_true_iff in HO as [HO HB]. apply andb_true_iff in HO as [Hf H0].
  assert (ES : default_z 1 (extract_ok (Some st)) = st) by (unfold extract_ok; rewrite Hf; reflexivity).
  rewrite ES. unfold py_indices, py_clamp in HP.
  unfold normalize_slice, slice_len. unfold fits_isize, isize_min, isize_max in *.
  destruct (Z.gtb_spec st 0) as [Hp|Hn].
  - destruct (Z.ltb_spec st 0); [lia|]. apply andb_true_iff in HB as [HB1 HB2].
    injection HP as HP1 HP2. eexists. split; [f_equal|split; [|reflexivity]].
    + subst b'. clear ES; destruct b as [z|]; unfold extract_ok, opt_all, default_z, fits_isize, isize_min, isize_max in *;
        [destruct ((- 2 ^ 63 <=? z)%Z && (z <=? 2 ^ 63 - 1)%Z) eqn:EZ|]; bd.
    + assert (0 <= b')%Z by (clear HP2; destruct b; bdh; lia). apply (f_equal Ok).
      apply (pos_stop b' _ e' (fun x => Z.quot (x - b' + st - 1) st)); [assumption|].
      clear ES; destruct e as [z|]; unfold extract_ok, opt_all, default_z, fits_isize, isize_min, isize_max in *;
        [destruct ((- 2 ^ 63 <=? z)%Z && (z <=? 2 ^ 63 - 1)%Z) eqn:EZ|]; bdh; bd.
  - destruct (Z.ltb_spec st 0); [|lia].
    apply andb_true_iff in HB as [HB HB2]. apply andb_true_iff in HB as [HB0 HB1].
    apply Nat.ltb_lt in HB0.
    injection HP as HP1 HP2. eexists. split; [f_equal|split; [|reflexivity]].
    + subst b'. clear ES; destruct b as [z|]; unfold extract_ok, opt_all, default_z, fits_isize, isize_min, isize_max in *;
        [destruct ((- 2 ^ 63 <=? z)%Z && (z <=? 2 ^ 63 - 1)%Z) eqn:EZ|]; bd.
    + assert (b' < Z.of_nat s)%Z by (clear HP2; destruct b; unfold opt_all in HB1; bdh; lia).
      apply (neg_stop b' _ e' (Z.of_nat s)
        (fun x => if (st =? 0)%Z then Panic else Ok (Z.quot (b' - x - st - 1) (- st))) (Ok 0%Z)); [assumption|].
      clear ES; destruct e as [z|]; unfold extract_ok, opt_all, default_z, fits_isize, isize_min, isize_max in *;
        [destruct ((- 2 ^ 63 <=? z)%Z && (z <=? 2 ^ 63 - 1)%Z) eqn:EZ|]; bdh; bd.
Qed.

Lemma slice_axis_stop a axis b e1 e2 st :
  slice_len b e1 st = slice_len b e2 st -> slice_axis a axis b e1 st = slice_axis a axis b e2 st.
Proof. intros H. unfold slice_axis. rewrite H. reflexivity. Qed.

Lemma normalize_index_ok i s :
  (- Z.of_nat s <= i < Z.of_nat s)%Z -> (Z.of_nat s <= isize_max)%Z ->
  to_isize (normalize_index i s) = (if (i <? 0)%Z then i + Z.of_nat s else i)%Z /\
  normalize_index i s = (if (i <? 0)%Z then i + Z.of_nat s else i)%Z.
Proof.
  unfold to_isize, normalize_index, wrap_usize, two64, isize_max. intros H1 H2.
  destruct (Z.ltb_spec i 0).
  - rewrite Z.mod_small by lia. split; [|lia]. destruct (Z.ltb_spec (Z.of_nat s + i) (2 ^ 63)); lia.
  - split; [|reflexivity]. destruct (Z.ltb_spec i (2 ^ 63)); lia.
Qed.

(* ---------- one slicing step in the middle of a tuple ---------- *)
Definition nn (z : Z) : Prop := (0 <= z)%Z.

Lemma skipn_upd_S {A} (l : list A) n v : skipn (S n) (upd l n v) = skipn (S n) l.
Proof. revert n; induction l as [|x l IH]; intros [|n]; simpl; auto. apply IH. Qed.

Lemma skipn_insert_S {A} (l : list A) n v : n <= length l -> skipn (S n) (insert_at n v l) = skipn n l.
Proof.
  revert n; induction l as [|x l IH]; intros [|n] H; simpl in *; auto; try lia. apply IH. lia.
Qed.

Lemma Forall_skipn_S {A} (P : A -> Prop) n l : Forall P (skipn n l) -> Forall P (skipn (S n) l).
Proof.
  revert n; induction l as [|x l IH]; intros n H; [constructor|].
  destruct n as [|n]; [inversion H; assumption|]. apply IH; exact H.
Qed.

Lemma skipn_nth_error {A} (l : list A) n x : nth_error l n = Some x -> In x (skipn n l).
Proof.
  revert n; induction l as [|y l IH]; intros [|n] H; simpl in *; try discriminate.
  - injection H as ->. left; reflexivity.
  - apply IH; exact H.
Qed.

Lemma upd_mid {A} (P : list A) s S v : upd (P ++ s :: S) (length P) v = P ++ v :: S.
Proof. rewrite upd_app_r, Nat.sub_diag by lia. reflexivity. Qed.

Lemma nth_error_mid {A} (P : list A) s S : nth_error (P ++ s :: S) (length P) = Some s.
Proof. rewrite nth_error_app2, Nat.sub_diag by lia. reflexivity. Qed.

Lemma nth_mid {A} (P : list A) s S d : nth (length P) (P ++ s :: S) d = s.
Proof. rewrite app_nth2, Nat.sub_diag by lia. reflexivity. Qed.

Lemma firstn_mid {A} (P S : list A) : firstn (length P) (P ++ S) = P.
Proof. rewrite firstn_app, Nat.sub_diag, firstn_all, app_nil_r. reflexivity. Qed.
Lemma skipn_mid {A} (P S : list A) : skipn (length P) (P ++ S) = S.
Proof. rewrite skipn_app, Nat.sub_diag, skipn_all. reflexivity. Qed.

Lemma step_slice {V} (buf : list V) a P s S b e st :
  wf buf a -> a_shape a = P ++ s :: S -> Forall nn (skipn (length P) (a_strides a)) ->
  py_slice s b e st -> st <> 0%Z ->
  exists a', slice_axis a (length P) b e st = Ok a' /\
    Forall nn (skipn (length (P ++ [s])) (a_strides a')) /\
    is_view buf a a' (P ++ py_count b e st :: S) (slice_idx (length P) b st).
Proof.
  intros W HS HN HP H0.
  assert (Hlt : length P < length (a_shape a)) by (rewrite HS, app_length; simpl; lia).
  pose proof (strides_nth buf a (length P) W Hlt) as HT.
  assert (Hlen : nth_error (a_shape a) (length P) = Some s) by (rewrite HS; apply nth_error_mid).
  assert (Hnn : (0 <= nth (length P) (a_strides a) 0)%Z).
  { rewrite Forall_forall in HN. apply HN. apply skipn_nth_error. exact HT. }
  destruct (slice_axis_is_view buf a (length P) b e st s _ W Hlen HT HP ltac:(left; exact Hnn))
    as (a' & n & E & Hc & Hv).
  assert (n = py_count b e st) as ->.
  { eapply count_unique; [exact Hc|]. intros j. apply py_count_spec; exact H0. }
  exists a'. split; [exact E|]. split.
  - unfold slice_axis in E. rewrite HT, Hlen in E.
    destruct (slice_len b e st); cbn [bind] in E; try discriminate. injection E as <-.
    cbn [view_with a_strides]. rewrite app_length, Nat.add_1_r, skipn_upd_S.
    apply Forall_skipn_S; exact HN.
  - rewrite HS, upd_mid in Hv. exact Hv.
Qed.

Lemma py_count_one j : py_count j (j + 1) 1 = 1.
Proof. unfold py_count. cbn [Z.gtb Z.compare]. rewrite Z.div_1_r. lia. Qed.

Lemma step_int {V} (buf : list V) a P s S i :
  wf buf a -> a_shape a = P ++ s :: S -> Forall nn (skipn (length P) (a_strides a)) ->
  (Z.of_nat s <= isize_max)%Z -> (- Z.of_nat s <= i < Z.of_nat s)%Z ->
  let j := to_isize (normalize_index i s) in
  j = (if (i <? 0)%Z then i + Z.of_nat s else i)%Z /\
  exists a', slice_axis a (length P) j (j + 1) 1 = Ok a' /\
    Forall nn (skipn (length (P ++ [s])) (a_strides a')) /\
    is_view buf a a' (P ++ 1 :: S) (slice_idx (length P) j 1).
Proof.
  intros W HS HN Hs Hi j. destruct (normalize_index_ok i s Hi Hs) as [Ej _].
  split; [exact Ej|]. fold j in Ej.
  assert (HP : py_slice s j (j + 1) 1) by (left; destruct (i <? 0)%Z eqn:?; lia).
  destruct (step_slice buf a P s S j (j + 1) 1 W HS HN HP ltac:(lia)) as (a' & E & N' & Hv).
  rewrite py_count_one in Hv. exists a'. auto.
Qed.

(* split an index tuple at the rank of the prefix *)
Lemma inb_split P s S idx :
  inb idx (P ++ s :: S) ->
  exists X y Y, idx = X ++ y :: Y /\ length X = length P /\ inb X P /\ y < s /\ inb Y S.
Proof.
  revert idx; induction P as [|p P IH]; intros idx H; simpl in *.
  - inversion H as [|y ? Y ? Hy HY]; subst. exists [], y, Y. repeat split; auto. constructor.
  - inversion H as [|x ? r ? Hx Hr]; subst. destruct (IH r Hr) as (X & y & Y & -> & HL & HX & Hy & HY).
    exists (x :: X), y, Y. repeat split; auto; [simpl; lia|]. apply inb_cons; auto.
Qed.

Lemma inb_split0 P S idx :
  inb idx (P ++ S) -> exists X Y, idx = X ++ Y /\ length X = length P /\ inb X P /\ inb Y S.
Proof.
  revert idx; induction P as [|p P IH]; intros idx H; simpl in *.
  - exists [], idx. repeat split; auto. constructor.
  - inversion H as [|x ? r ? Hx Hr]; subst. destruct (IH r Hr) as (X & Y & -> & HL & HX & HY).
    exists (x :: X), Y. repeat split; auto; [simpl; lia|]. apply inb_cons; auto.
Qed.

(* the index map of the rest of a tuple, applied behind a prefix of n axes *)
Definition behind (n : nat) (f : list nat -> list nat) (idx : list nat) : list nat :=
  firstn n idx ++ f (skipn n idx).

Lemma behind_app X Y f : behind (length X) f (X ++ Y) = X ++ f Y.
Proof. unfold behind. rewrite firstn_mid, skipn_mid. reflexivity. Qed.

Lemma slice_idx_mid X y Y b st :
  slice_idx (length X) b st (X ++ y :: Y) = X ++ Z.to_nat (b + Z.of_nat y * st) :: Y.
Proof. unfold slice_idx. rewrite upd_mid, nth_mid. reflexivity. Qed.

(* ---------- items of a tuple ---------- *)
Definition imatch (k : subscript) (it : item) : Prop :=
  match k, it with
  | SNew, NewAxis => True
  | SInt i, IInt j => i = j
  | SSlice b e st, ISlice x y z =>
      forall s, slice_ok b e st s = true -> (Z.of_nat s <= isize_max)%Z ->
        z = st /\
        forall b' e', py_indices b e st (Z.of_nat s) = (b', e') ->
          exists e2, normalize_slice x y z (Z.of_nat s) = (b', e2) /\ slice_len b' e2 st = slice_len b' e' st
  | _, _ => False
  end.

Lemma squeeze_list_cons n sq a : squeeze_list (n :: sq) a = squeeze_axis (squeeze_list sq a) n.
Proof. unfold squeeze_list. simpl. rewrite fold_left_app. reflexivity. Qed.

Lemma apply_items_spec {V} (buf : list V) : forall ks items a P S S' sq,
  Forall2 imatch ks items ->
  wf buf a -> a_shape a = P ++ S -> Forall nn (skipn (length P) (a_strides a)) ->
  dims_fit S -> subs_ok ks S = true -> sel_shape ks S = Some S' ->
  exists a' more, apply_items items a (length P) sq = Ok (a', sq ++ more) /\
    is_view buf a (squeeze_list more a') (P ++ S') (behind (length P) (sel_src ks S)).
Proof.
  intros ks items a P S S' sq HM. revert a P S S' sq.
  induction HM as [|k it ks items Hk HM IH]; intros a P S S' sq W HS HN HF HG HE.
  - cbn in HE. assert (S' = S) as -> by congruence. exists a, []. cbn. rewrite app_nil_r.
    split; [reflexivity|]. rewrite <- HS. apply is_view_refl; [exact W|].
    intros idx _. unfold behind. apply firstn_skipn.
  - destruct k as [|i|b e st|]; destruct it as [|i'|x0 y0 z0]; cbn [imatch] in Hk; try contradiction.
    + (* new axis *)
      cbn [sel_shape] in HE. destruct (sel_shape ks S) as [S1|] eqn:E1; [|discriminate].
      injection HE as <-.
      destruct (expand_dims_is_view buf a (length P) W) as [HX _].
      assert (HL : length P <= ndim a) by (unfold ndim; rewrite HS, app_length; lia).
      destruct (HX HL) as (a1 & Ea & Hv). pose proof Hv as (Sa & Wa & _).
      assert (Sa' : a_shape a1 = (P ++ [1]) ++ S).
      { rewrite Sa, insert_at_app by exact HL. rewrite HS, firstn_mid, skipn_mid.
        rewrite <- app_assoc. reflexivity. }
      assert (Na : Forall nn (skipn (length (P ++ [1])) (a_strides a1))).
      { unfold expand_dims in Ea. destruct (ndim a <? length P); [discriminate|].
        injection Ea as <-. cbn [view_with a_strides]. rewrite app_length, Nat.add_1_r, skipn_insert_S.
        - exact HN.
        - destruct W as (_ & _ & _ & W4 & _). rewrite W4. exact HL. }
      cbn [subs_ok] in HG.
      destruct (IH a1 (P ++ [1]) S S1 sq Wa Sa' Na HF HG E1) as (a' & more & Eap & Hv2).
      cbn [apply_items]. rewrite Ea. cbn [bind].
      replace (Datatypes.S (length P)) with (length (P ++ [1])) by (rewrite app_length; simpl; lia).
      exists a', more. split; [exact Eap|].
      rewrite <- app_assoc in Hv2. cbn [app] in Hv2.
      eapply is_view_trans; [exact Hv|exact Hv2|]. intros idx Hi.
      destruct (inb_split _ _ _ _ Hi) as (X & y & Y & -> & HXL & _ & _ & _).
      rewrite app_length. cbn [length]. rewrite <- HXL, behind_app.
      cbn [sel_src tl].
      replace (length X + 1) with (length (X ++ [y])) by (rewrite app_length; reflexivity).
      replace (X ++ y :: Y) with ((X ++ [y]) ++ Y) by (rewrite <- app_assoc; reflexivity).
      rewrite behind_app. rewrite remove_at_app by (rewrite !app_length; simpl; lia).
      rewrite <- app_assoc. rewrite firstn_mid. f_equal.
      replace (Datatypes.S (length X)) with (length (X ++ [y])) by (rewrite app_length; simpl; lia).
      cbn [app]. replace (X ++ y :: sel_src ks S Y) with ((X ++ [y]) ++ sel_src ks S Y)
        by (rewrite <- app_assoc; reflexivity). rewrite skipn_mid. reflexivity.
    + (* integer *)
      subst i'. destruct S as [|s S0]; [discriminate|].
      cbn [sel_shape] in HE. destruct (_ && _) eqn:Hr; [|discriminate].
      apply andb_true_iff in Hr as [Hr1 Hr2]. apply Z.leb_le in Hr1. apply Z.ltb_lt in Hr2.
      inversion HF as [|? ? Hs HF0]; subst. cbn [subs_ok] in HG.
      apply andb_true_iff in HG as [Hfi HG].
      destruct (step_int buf a P s S0 i W HS HN Hs (conj Hr1 Hr2)) as (Ej & a1 & Ea & Na & Hv).
      set (j := to_isize (normalize_index i s)) in *.
      pose proof Hv as (Sa & Wa & _).
      assert (Sa' : a_shape a1 = (P ++ [1]) ++ S0) by (rewrite Sa, <- app_assoc; reflexivity).
      assert (Na' : Forall nn (skipn (length (P ++ [1])) (a_strides a1)))
        by (rewrite app_length in *; exact Na).
      destruct (IH a1 (P ++ [1]) S0 S' (sq ++ [length P]) Wa Sa' Na' HF0 HG HE) as (a' & more & Eap & Hv2).
      cbn [apply_items]. rewrite HS, nth_error_mid. fold j. rewrite Ea. cbn [bind].
      replace (Datatypes.S (length P)) with (length (P ++ [1])) by (rewrite app_length; simpl; lia).
      exists a', (length P :: more). split; [rewrite Eap, <- app_assoc; reflexivity|].
      rewrite squeeze_list_cons. pose proof Hv2 as (Sb & Wb & _).
      assert (Sb' : a_shape (squeeze_list more a') = P ++ 1 :: S')
        by (rewrite Sb, <- app_assoc; reflexivity).
      destruct (squeeze_axis_is_view buf (squeeze_list more a') (length P) Wb) as [HQ _].
      specialize (HQ ltac:(rewrite Sb'; apply nth_error_mid)).
      assert (Rm : remove_at (length P) (a_shape (squeeze_list more a')) = P ++ S').
      { rewrite Sb', remove_at_app by (rewrite app_length; simpl; lia). rewrite firstn_mid.
        replace (Datatypes.S (length P)) with (length (P ++ [1])) by (rewrite app_length; simpl; lia).
        replace (P ++ 1 :: S') with ((P ++ [1]) ++ S') by (rewrite <- app_assoc; reflexivity).
        rewrite skipn_mid. reflexivity. }
      rewrite Rm in HQ.
      eapply is_view_trans; [exact Hv| |].
      { eapply is_view_trans; [exact Hv2|exact HQ|]. intros idx Hi. reflexivity. }
      intros idx Hi. cbv beta. destruct (inb_split0 _ _ _ Hi) as (X & Y & -> & HXL & _ & _).
      rewrite app_length. cbn [length]. rewrite <- HXL, behind_app.
      rewrite insert_at_app by (rewrite app_length; lia). rewrite firstn_mid, skipn_mid.
      replace (length X + 1) with (length (X ++ [0])) by (rewrite app_length; reflexivity).
      replace (X ++ 0 :: Y) with ((X ++ [0]) ++ Y) by (rewrite <- app_assoc; reflexivity).
      rewrite behind_app, <- app_assoc. cbn [app]. rewrite slice_idx_mid.
      cbn [sel_src]. rewrite Ej. f_equal. f_equal. f_equal. destruct (i <? 0)%Z; lia.
    + (* slice *)
      destruct S as [|s S0]; [discriminate|].
      cbn [sel_shape] in HE. destruct (py_indices b e st (Z.of_nat s)) as [b' e'] eqn:EP.
      destruct (sel_shape ks S0) as [S1|] eqn:E1; [|discriminate]. injection HE as <-.
      inversion HF as [|? ? Hs HF0]; subst. cbn [subs_ok] in HG.
      apply andb_true_iff in HG as [Hok HG].
      destruct (Hk s Hok Hs) as [-> Hn]. destruct (Hn b' e' EP) as (e2 & En & El).
      assert (Hst : st <> 0%Z).
      { unfold slice_ok in Hok. destruct (Z.eqb_spec st 0); [|assumption].
        rewrite andb_false_r in Hok. discriminate. }
      pose proof (py_indices_py_slice b e st s b' e' Hst EP) as HPs.
      destruct (step_slice buf a P s S0 b' e' st W HS HN HPs Hst) as (a1 & Ea & Na & Hv).
      pose proof Hv as (Sa & Wa & _). set (c := py_count b' e' st) in *.
      assert (Sa' : a_shape a1 = (P ++ [c]) ++ S0) by (rewrite Sa, <- app_assoc; reflexivity).
      assert (Na' : Forall nn (skipn (length (P ++ [c])) (a_strides a1)))
        by (rewrite app_length in *; exact Na).
      destruct (IH a1 (P ++ [c]) S0 S1 sq Wa Sa' Na' HF0 HG E1) as (a' & more & Eap & Hv2).
      cbn [apply_items]. rewrite HS, nth_error_mid, En.
      rewrite (slice_axis_stop a (length P) b' e2 e' st El), Ea. cbn [bind].
      replace (Datatypes.S (length P)) with (length (P ++ [c])) by (rewrite app_length; simpl; lia).
      exists a', more. split; [exact Eap|].
      rewrite <- app_assoc in Hv2. cbn [app] in Hv2.
      eapply is_view_trans; [exact Hv|exact Hv2|]. intros idx Hi.
      destruct (inb_split _ _ _ _ Hi) as (X & y & Y & -> & HXL & _ & _ & _).
      rewrite app_length. cbn [length]. rewrite <- HXL, behind_app.
      cbn [sel_src tl hd]. rewrite EP.
      replace (length X + 1) with (length (X ++ [y])) by (rewrite app_length; reflexivity).
      replace (X ++ y :: Y) with ((X ++ [y]) ++ Y) by (rewrite <- app_assoc; reflexivity).
      rewrite behind_app, <- app_assoc. cbn [app]. rewrite slice_idx_mid. reflexivity.
Qed.

(* ---------- ellipsis ---------- *)
Lemma full_slice_match : imatch full_slice (ISlice 0 isize_max 1).
Proof.
  intros s _ Hs. split; [reflexivity|]. intros b' e' E. cbn in E. injection E as <- <-.
  exists (Z.of_nat s). split; [|reflexivity].
  unfold normalize_slice, isize_max, isize_min in *. cbn [Z.gtb Z.compare].
  rewrite Z.eqb_refl. replace (0 =? - 2 ^ 63)%Z with false by reflexivity.
  cbn [Z.ltb Z.compare]. destruct (Z.ltb_spec (Z.of_nat s) 0); [lia|]. f_equal; lia.
Qed.

Lemma slice_match b e st :
  imatch (SSlice b e st)
    (ISlice (default_z isize_min (extract_ok b)) (default_z isize_max (extract_ok e))
            (default_z 1 (extract_ok (Some st)))).
Proof.
  intros s Hok Hs. split.
  - unfold slice_ok in Hok. apply andb_true_iff in Hok as [Hok _]. apply andb_true_iff in Hok as [Hf _].
    unfold extract_ok. rewrite Hf. reflexivity.
  - intros b' e' E. destruct (normalize_slice_ok b e st s b' e' Hok Hs E) as (e2 & E1 & E2 & E3).
    exists e2. rewrite E3 in *. auto.
Qed.

Lemma expand_items_match n ks items :
  expand_items n ks = Ok items ->
  Forall2 imatch
    (flat_map (fun k => match k with SEllipsis => repeat full_slice n | _ => [k] end) ks) items.
Proof.
  revert items; induction ks as [|k ks IH]; intros items H; cbn [expand_items] in H.
  - injection H as <-. constructor.
  - destruct k as [|i|b e st|]; cbn [bind] in H.
    + destruct (expand_items n ks) as [r| | |]; cbn [bind] in H; try discriminate. injection H as <-.
      cbn. constructor; [exact I|apply IH; reflexivity].
    + destruct (fits_isize i); cbn [bind] in H; [|discriminate].
      destruct (expand_items n ks) as [r| | |]; cbn [bind] in H; try discriminate. injection H as <-.
      cbn. constructor; [reflexivity|apply IH; reflexivity].
    + destruct (expand_items n ks) as [r| | |]; cbn [bind] in H; try discriminate. injection H as <-.
      cbn. constructor; [apply slice_match|apply IH; reflexivity].
    + destruct (expand_items n ks) as [r| | |]; cbn [bind] in H; try discriminate. injection H as <-.
      cbn. apply Forall2_app; [|apply IH; reflexivity].
      clear. induction n; cbn; constructor; [apply full_slice_match|assumption].
Qed.

Definition ints_fit (k : subscript) : bool := match k with SInt i => fits_isize i | _ => true end.

Lemma expand_items_ok n ks :
  forallb ints_fit ks = true -> exists items, expand_items n ks = Ok items.
Proof.
  induction ks as [|k ks IH]; cbn [forallb expand_items]; intros H; [eexists; reflexivity|].
  apply andb_true_iff in H as [H1 H2]. destruct (IH H2) as [r Er]. rewrite Er.
  destruct k; cbn in *; try rewrite H1; cbn; eexists; reflexivity.
Qed.

Lemma sel_shape_consumes ks : forall S S', sel_shape ks S = Some S' ->
  length (filter consumes ks) <= length S.
Proof.
  induction ks as [|k ks IH]; intros S S' H; cbn [filter length]; [lia|].
  destruct k; cbn [sel_shape consumes] in *.
  - destruct (sel_shape ks S) eqn:E; [|discriminate]. eapply IH; exact E.
  - destruct S as [|s S]; [discriminate|]. destruct (_ && _); [|discriminate].
    cbn [length]. specialize (IH _ _ H). lia.
  - destruct S as [|s S]; [discriminate|]. destruct (py_indices _ _ _ _).
    destruct (sel_shape ks S) eqn:E; [|discriminate]. cbn [length]. specialize (IH _ _ E). lia.
  - discriminate.
Qed.

Lemma subs_ok_ints ks : forall S S', sel_shape ks S = Some S' -> subs_ok ks S = true ->
  forallb ints_fit ks = true.
Proof.
  induction ks as [|k ks IH]; intros S S' H HG; [reflexivity|].
  destruct k; cbn [sel_shape subs_ok forallb ints_fit] in *.
  - destruct (sel_shape ks S) eqn:E; [|discriminate]. eapply IH; eassumption.
  - destruct S as [|s S]; [discriminate|]. destruct (_ && _); [|discriminate].
    apply andb_true_iff in HG as [-> HG]. eapply IH; eassumption.
  - destruct S as [|s S]; [discriminate|]. destruct (py_indices _ _ _ _).
    destruct (sel_shape ks S) eqn:E; [|discriminate].
    apply andb_true_iff in HG as [_ HG]. eapply IH; eassumption.
  - discriminate.
Qed.

Lemma written_out_consumes nd ks : forallb ints_fit (written_out nd ks) = true -> forallb ints_fit ks = true.
Proof.
  unfold written_out. generalize (nd - length (filter consumes ks)) as m. intros m.
  induction ks as [|k ks IH]; cbn [flat_map forallb]; [auto|].
  rewrite forallb_app. intros H. apply andb_true_iff in H as [H1 H2]. rewrite (IH H2).
  destruct k; cbn in *; auto.
Qed.

Lemma written_out_count nd ks :
  length (filter consumes ks) <= length (filter consumes (written_out nd ks)).
Proof.
  unfold written_out. generalize (nd - length (filter consumes ks)) as m. intros m.
  induction ks as [|k ks IH]; cbn [flat_map filter length]; [lia|].
  rewrite filter_app, app_length. destruct k; cbn [filter consumes length]; try lia.
Qed.

(* all-integer tuples *)
Lemma int_items_match ks items S S' :
  Forall2 imatch ks items -> forallb is_int items = true -> length items = length S ->
  dims_fit S -> sel_shape ks S = Some S' ->
  S' = [] /\ idx_okZ (int_indices items S) S = true /\
  map Z.to_nat (int_indices items S) = sel_src ks S [].
Proof.
  intros HM. revert S S'. induction HM as [|k it ks items Hk HM IH]; intros S S' HA HL HF HE.
  - destruct S; [|discriminate]. cbn in *. injection HE as <-. auto.
  - cbn [forallb] in HA. apply andb_true_iff in HA as [Hi HA].
    destruct it as [|j|]; try discriminate. destruct k as [|i| |]; cbn in Hk; try contradiction. subst j.
    destruct S as [|s S]; [discriminate|]. cbn [sel_shape] in HE.
    destruct (_ && _) eqn:Hr; [|discriminate]. inversion HF as [|? ? Hs HF0]; subst.
    apply andb_true_iff in Hr as [Hr1 Hr2]. apply Z.leb_le in Hr1. apply Z.ltb_lt in Hr2.
    destruct (IH S S' HA ltac:(simpl in HL; lia) HF0 HE) as (-> & H1 & H2).
    destruct (normalize_index_ok i s (conj Hr1 Hr2) Hs) as [_ En].
    split; [reflexivity|]. cbn [int_indices idx_okZ map sel_src]. rewrite H1, H2, En. split; [|reflexivity].
    destruct (Z.ltb_spec i 0); lia.
Qed.

Lemma getitem_tuple_spec {V} (buf : list V) a ks sh' :
  wf buf a -> nonneg_strides a -> dims_fit (a_shape a) ->
  count_ellipsis ks <= 1 ->
  subs_ok (written_out (ndim a) ks) (a_shape a) = true ->
  sel_shape (written_out (ndim a) ks) (a_shape a) = Some sh' ->
  (exists v, getitem_tuple buf a ks = Ok (Scalar v) /\ sh' = [] /\
     get buf a (sel_src (written_out (ndim a) ks) (a_shape a) []) = Some v) \/
  (exists a', getitem_tuple buf a ks = Ok (View a') /\
     is_view buf a a' sh' (sel_src (written_out (ndim a) ks) (a_shape a))).
Proof.
  intros W HN HF HC HG HE. set (kk := written_out (ndim a) ks) in *.
  pose proof (subs_ok_ints _ _ _ HE HG) as HI.
  pose proof (written_out_consumes _ _ HI) as HI0.
  destruct (expand_items_ok (ndim a - count_explicit ks) ks HI0) as [items Ei].
  pose proof (expand_items_match _ _ _ Ei) as HM.
  change (flat_map _ ks) with kk in HM.
  unfold getitem_tuple, expand_ellipsis.
  destruct (Nat.ltb_spec 1 (count_ellipsis ks)); [lia|].
  assert (Hd : (ndim a <? count_explicit ks) = false).
  { apply Nat.ltb_ge. pose proof (sel_shape_consumes _ _ _ HE). pose proof (written_out_count (ndim a) ks).
    fold kk in H1. unfold count_explicit, ndim in *. lia. }
  rewrite Hd, andb_false_r, Ei. cbn [bind].
  destruct (Nat.eqb_spec (length items) (ndim a)) as [EL|NL]; cbn [andb].
  - destruct (forallb is_int items) eqn:EA.
    + left. destruct (int_items_match kk items (a_shape a) sh' HM EA EL HF HE) as (-> & H1 & H2).
      unfold get_elementZ. rewrite H1, H2.
      assert (Hin : inb (sel_src kk (a_shape a) []) (a_shape a)).
      { rewrite <- H2. clear - H1. revert H1. generalize (int_indices items (a_shape a)) as l.
        generalize (a_shape a) as sh. induction sh as [|s sh IH]; intros [|z l] H; cbn in *; try discriminate.
        - constructor.
        - apply andb_true_iff in H as [H H2]. apply inb_cons. split; [lia|apply IH; exact H2]. }
      pose proof W as (_ & _ & _ & _ & W5 & _). destruct (W5 _ Hin) as [v Hv].
      exists v. rewrite Hv. auto.
    + right. destruct (apply_items_spec buf kk items a [] (a_shape a) sh' [] HM W eq_refl HN HF HG HE)
        as (a' & more & E & Hv). cbn [length app] in *. rewrite E. cbn [bind fst snd].
      exists (squeeze_list more a'). auto.
  - right. destruct (apply_items_spec buf kk items a [] (a_shape a) sh' [] HM W eq_refl HN HF HG HE)
        as (a' & more & E & Hv). cbn [length app] in *. rewrite E. cbn [bind fst snd].
      exists (squeeze_list more a'). auto.
Qed.

(* ---------- single integer / single slice ---------- *)
Lemma getitem_int_spec {V} (buf : list V) a s S i :
  wf buf a -> nonneg_strides a -> a_shape a = s :: S -> (Z.of_nat s <= isize_max)%Z ->
  (- Z.of_nat s <= i < Z.of_nat s)%Z ->
  exists a', getitem_int a i = Ok a' /\
    is_view buf a a' S (cons (Z.to_nat (if (i <? 0)%Z then i + Z.of_nat s else i))).
Proof.
  intros W HN HS Hs Hi.
  destruct (step_int buf a [] s S i W HS HN Hs Hi) as (Ej & a1 & Ea & Na & Hv).
  set (j := to_isize (normalize_index i s)) in *. cbn [length app] in *.
  pose proof Hv as (Sa & Wa & _).
  unfold getitem_int. rewrite HS. cbn [nth_error]. fold j. rewrite Ea. cbn [bind].
  eexists; split; [reflexivity|].
  destruct (squeeze_axis_is_view buf a1 0 Wa) as [HQ _].
  specialize (HQ ltac:(rewrite Sa; reflexivity)). rewrite Sa in HQ. cbn [remove_at] in HQ.
  eapply is_view_trans; [exact Hv|exact HQ|]. intros idx _.
  cbn. rewrite Ej. f_equal. f_equal. destruct (i <? 0)%Z; lia.
Qed.

Lemma getitem_slice_spec {V} (buf : list V) a s S b e st b' e' :
  wf buf a -> nonneg_strides a -> a_shape a = s :: S -> st <> 0%Z ->
  py_indices b e st (Z.of_nat s) = (b', e') ->
  exists a', getitem_slice a b e st = Ok a' /\
    is_view buf a a' (py_count b' e' st :: S)
      (fun idx => match idx with [] => [] | x :: r => Z.to_nat (b' + Z.of_nat x * st) :: r end).
Proof.
  intros W HN HS Hst EP.
  pose proof (py_indices_py_slice b e st s b' e' Hst EP) as HPs.
  destruct (step_slice buf a [] s S b' e' st W HS HN HPs Hst) as (a1 & Ea & Na & Hv).
  cbn [length app] in *. unfold getitem_slice. rewrite HS. cbn [nth_error].
  destruct (Z.eqb_spec st 0); [contradiction|]. rewrite EP, Ea. exists a1. split; [reflexivity|].
  destruct Hv as (S1 & W1 & G1). split; [exact S1|]. split; [exact W1|].
  intros idx Hi. destruct (G1 idx Hi) as [G2 G3]. destruct idx as [|x r]; [inversion Hi|].
  split; [exact G2|exact G3].
Qed.

(* ---------- the view assigned to ---------- *)
Lemma setitem_view_spec {V} (buf : list V) : forall ks a P S S',
  wf buf a -> a_shape a = P ++ S -> Forall nn (skipn (length P) (a_strides a)) ->
  dims_fit S -> forallb set_sub_ok ks = true -> set_shape ks S = Some S' ->
  exists a', setitem_view ks a (length P) = Ok a' /\
    is_view buf a a' (P ++ S') (behind (length P) (set_src ks S)).
Proof.
  induction ks as [|k ks IH]; intros a P S S' W HS HN HF HG HE.
  - cbn in HE. assert (S' = S) as -> by congruence. exists a. cbn.
    split; [reflexivity|]. rewrite <- HS. apply is_view_refl; [exact W|].
    intros idx _. unfold behind. apply firstn_skipn.
  - cbn [forallb] in HG. apply andb_true_iff in HG as [Hk HG].
    destruct k as [|i|b e st|]; try discriminate;
      (destruct S as [|s S0]; [discriminate|]); cbn [set_shape] in HE; cbn [set_sub_ok] in Hk;
      inversion HF as [|? ? Hs HF0]; subst.
    + destruct (_ && _) eqn:Hr; [|discriminate].
      apply andb_true_iff in Hr as [Hr1 Hr2]. apply Z.leb_le in Hr1. apply Z.ltb_lt in Hr2.
      destruct (set_shape ks S0) as [S1|] eqn:E1; [|discriminate]. injection HE as <-.
      destruct (step_int buf a P s S0 i W HS HN Hs (conj Hr1 Hr2)) as (Ej & a1 & Ea & Na & Hv).
      set (j := to_isize (normalize_index i s)) in *.
      pose proof Hv as (Sa & Wa & _).
      assert (Sa' : a_shape a1 = (P ++ [1]) ++ S0) by (rewrite Sa, <- app_assoc; reflexivity).
      assert (Na' : Forall nn (skipn (length (P ++ [1])) (a_strides a1)))
        by (rewrite app_length in *; exact Na).
      destruct (IH a1 (P ++ [1]) S0 S1 Wa Sa' Na' HF0 HG E1) as (a' & Eap & Hv2).
      cbn [setitem_view]. rewrite HS, nth_error_mid, Hk. fold j. rewrite Ea. cbn [bind].
      replace (Datatypes.S (length P)) with (length (P ++ [1])) by (rewrite app_length; simpl; lia).
      exists a'. split; [exact Eap|].
      rewrite <- app_assoc in Hv2. cbn [app] in Hv2.
      eapply is_view_trans; [exact Hv|exact Hv2|]. intros idx Hi.
      destruct (inb_split _ _ _ _ Hi) as (X & y & Y & -> & HXL & _ & Hy & _).
      assert (y = 0) as -> by lia.
      rewrite app_length. cbn [length]. rewrite <- HXL, behind_app.
      cbn [set_src tl].
      replace (length X + 1) with (length (X ++ [0])) by (rewrite app_length; reflexivity).
      replace (X ++ 0 :: Y) with ((X ++ [0]) ++ Y) by (rewrite <- app_assoc; reflexivity).
      rewrite behind_app, <- app_assoc. cbn [app]. rewrite slice_idx_mid.
      rewrite Ej. f_equal. f_equal. f_equal. destruct (i <? 0)%Z; lia.
    + destruct (py_indices b e st (Z.of_nat s)) as [b' e'] eqn:EP.
      destruct (set_shape ks S0) as [S1|] eqn:E1; [|discriminate]. injection HE as <-.
      assert (Hst : st <> 0%Z) by (destruct (Z.eqb_spec st 0); [discriminate|assumption]).
      pose proof (py_indices_py_slice b e st s b' e' Hst EP) as HPs.
      destruct (step_slice buf a P s S0 b' e' st W HS HN HPs Hst) as (a1 & Ea & Na & Hv).
      pose proof Hv as (Sa & Wa & _). set (c := py_count b' e' st) in *.
      assert (Sa' : a_shape a1 = (P ++ [c]) ++ S0) by (rewrite Sa, <- app_assoc; reflexivity).
      assert (Na' : Forall nn (skipn (length (P ++ [c])) (a_strides a1)))
        by (rewrite app_length in *; exact Na).
      destruct (IH a1 (P ++ [c]) S0 S1 Wa Sa' Na' HF0 HG E1) as (a' & Eap & Hv2).
      cbn [setitem_view]. rewrite HS, nth_error_mid.
      destruct (Z.eqb_spec st 0); [contradiction|]. rewrite EP, Ea. cbn [bind].
      replace (Datatypes.S (length P)) with (length (P ++ [c])) by (rewrite app_length; simpl; lia).
      exists a'. split; [exact Eap|].
      rewrite <- app_assoc in Hv2. cbn [app] in Hv2.
      eapply is_view_trans; [exact Hv|exact Hv2|]. intros idx Hi.
      destruct (inb_split _ _ _ _ Hi) as (X & y & Y & -> & HXL & _ & _ & _).
      rewrite app_length. cbn [length]. rewrite <- HXL, behind_app.
      cbn [set_src tl hd]. rewrite EP.
      replace (length X + 1) with (length (X ++ [y])) by (rewrite app_length; reflexivity).
      replace (X ++ y :: Y) with ((X ++ [y]) ++ Y) by (rewrite <- app_assoc; reflexivity).
      rewrite behind_app, <- app_assoc. cbn [app]. rewrite slice_idx_mid. reflexivity.
Qed.
