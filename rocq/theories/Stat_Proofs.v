(* Order statistics: selection, sorting and counting. *)
From Coq Require Import Permutation Sorted.
From Verif Require Import Base Lists Arr_Spec Arr_Model Arr_Proofs Copy_Model Copy_Proofs Elem_Model Red_Spec Red_Model Red_Proofs
  Sort_Spec Sort_Model Sort_Proofs Sort_Select Sort_Api Stat_Spec Stat_Model.
Local Open Scope nat_scope.

Section Kth.
Context {K : Type}.
Variable leb : K -> K -> bool.

Lemma preorder_incl l m : incl m l -> preorder_on leb l -> preorder_on leb m.
Proof. intros I [TT TR]. split; intros; [apply TT|eapply TR]; try eassumption; apply I; assumption. Qed.
Lemma sorts_on l : preorder_on leb l -> sorts leb l (stable_sort leb l).
Proof.
  intro H. split; [apply stable_sort_perm|]. unfold ascending.
  eapply SSorted_weaken; [|apply (stable_sort_spec_on leb (fun _ _ => True) l H), SSorted_true]. intros x y [E _]; exact E.
Qed.

(* a partitioned list: a sorted rearrangement with the same element in place k *)
Lemma partition_sorted l r k : preorder_on leb l -> partitioned leb k l r ->
  exists r1 v r2, r = r1 ++ v :: r2 /\ length r1 = k /\ sorts leb l (stable_sort leb r1 ++ v :: stable_sort leb r2).
Proof.
  intros PO (HP & v & Hv & HL & HR). pose proof (nth_error_split r k Hv) as (r1 & r2 & -> & L1).
  exists r1, v, r2. split; [reflexivity|]. split; [exact L1|].
  assert (IL : incl (r1 ++ v :: r2) l) by (intros z Hz; eapply Permutation_in; [apply Permutation_sym, HP|exact Hz]).
  assert (I1 : incl r1 l) by (intros z Hz; apply IL, in_or_app; left; exact Hz).
  assert (I2 : incl r2 l) by (intros z Hz; apply IL, in_or_app; right; right; exact Hz).
  assert (IV : In v l) by (apply IL, in_elt).
  assert (F1 : Forall (fun x => leb x v = true) r1).
  { apply Forall_forall. intros x Hx. apply In_nth_error in Hx as [i Hi].
    assert (i < length r1) by (apply nth_error_Some; congruence).
    apply (HL i x); [lia|]. rewrite nth_error_app1 by lia. exact Hi. }
  assert (F2 : Forall (fun x => leb v x = true) r2).
  { apply Forall_forall. intros x Hx. apply In_nth_error in Hx as [i Hi].
    apply (HR (k + 1 + i) x); [lia|]. rewrite nth_error_app2 by lia. replace (k + 1 + i - length r1) with (S i) by lia. exact Hi. }
  destruct (sorts_on r1 (preorder_incl l r1 I1 PO)) as [P1 S1], (sorts_on r2 (preorder_incl l r2 I2 PO)) as [P2 S2].
  split.
  - eapply Permutation_trans; [exact HP|]. apply Permutation_app; [exact P1|]. apply perm_skip, P2.
  - assert (F1' : Forall (fun x => leb x v = true) (stable_sort leb r1)) by (eapply Permutation_Forall; eassumption).
    assert (F2' : Forall (fun x => leb v x = true) (stable_sort leb r2)) by (eapply Permutation_Forall; eassumption).
    assert (J1 : incl (stable_sort leb r1) l) by (intros z Hz; apply I1; eapply Permutation_in; [apply Permutation_sym, P1|exact Hz]).
    assert (J2 : incl (stable_sort leb r2) l) by (intros z Hz; apply I2; eapply Permutation_in; [apply Permutation_sym, P2|exact Hz]).
    destruct PO as [_ TR]. unfold ascending in *.
    revert F1' F2' S1 S2 J1 J2. generalize (stable_sort leb r1) (stable_sort leb r2).
    intros s1 s2 G1 G2 S1 S2 J1 J2. induction s1 as [|x s1 IH]; cbn [app]; [constructor; assumption|].
    inversion G1; subst. inversion S1; subst. constructor.
    { apply IH; try assumption. intros z Hz. apply J1. right. exact Hz. }
    apply Forall_app. split; [assumption|]. constructor; [assumption|].
    rewrite Forall_forall in *. intros z Hz. apply (TR x v z); auto. apply J1. left. reflexivity.
Qed.

Lemma on_refl l x : preorder_on leb l -> In x l -> leb x x = true.
Proof. intros [TT _] H. destruct (TT x x H H); assumption. Qed.

(* the running maximum of a non-empty list *)
Lemma fold_max bot mx l : preorder_on leb (bot :: l) -> max_from leb bot mx l -> forall r acc, incl r l -> In acc (bot :: l) ->
  In (fold_left mx r acc) (acc :: r) /\ forall z, In z (acc :: r) -> leb z (fold_left mx r acc) = true.
Proof.
  intros PO [_ MX]. induction r as [|x r IH]; intros acc I A; cbn [fold_left].
  - split; [left; reflexivity|]. intros z [<-|[]]. apply (on_refl (bot :: l)); assumption.
  - assert (IX : In x (bot :: l)) by (right; apply I; left; reflexivity).
    destruct (MX acc x A IX) as (C & L1 & L2).
    assert (A' : In (mx acc x) (bot :: l)) by (destruct C as [-> | ->]; assumption).
    destruct (IH (mx acc x) (fun z Hz => I z (or_intror Hz)) A') as [H1 H2].
    assert (IF : In (fold_left mx r (mx acc x)) (bot :: l)).
    { destruct H1 as [<-|H1]; [exact A'|]. right. apply I. right. exact H1. }
    split.
    + destruct H1 as [<-|H1]; [|right; right; exact H1]. destruct C as [-> | ->]; [left|right; left]; reflexivity.
    + destruct PO as [_ TR]. specialize (H2 (mx acc x) (or_introl eq_refl)) as H3.
      intros z [<-|[<-|Hz]].
      * apply (TR acc (mx acc x)); assumption.
      * apply (TR x (mx acc x)); assumption.
      * apply H2. right. exact Hz.
Qed.

Lemma nth_ascending s i j x y : (forall z, In z s -> leb z z = true) -> ascending leb s -> i <= j -> nth_error s i = Some x -> nth_error s j = Some y ->
  leb x y = true.
Proof.
  intros RF HS L Hx Hy. destruct (Nat.eq_dec i j) as [->|N].
  - assert (x = y) as -> by congruence. apply RF. eapply nth_error_In; eassumption.
  - pose proof (proj1 (SSorted_nth _ s) HS i j x y) as H. apply H; [lia|assumption|assumption].
Qed.

(* the selected element, and the largest one on its left *)
Lemma select_kth sel l k : preorder_on leb l -> select_contract sel -> k < length l ->
  exists v, nth_error (sel leb l k) k = Some v /\ kth_smallest leb k l v.
Proof.
  intros PO SC HK. pose proof (SC leb l k PO HK) as HP.
  destruct (partition_sorted l _ k PO HP) as (r1 & v & r2 & E & L & SO). exists v.
  split; [rewrite E, nth_error_app2, L, Nat.sub_diag by lia; reflexivity|].
  assert (IV : In v l).
  { destruct SO as [PE _]. eapply Permutation_in; [apply Permutation_sym, PE|]. apply in_elt. }
  exists (stable_sort leb r1 ++ v :: stable_sort leb r2), v. split; [exact SO|].
  split; [rewrite nth_error_app2 by (rewrite stable_sort_length; lia); rewrite stable_sort_length, L, Nat.sub_diag; reflexivity|].
  pose proof (on_refl l v PO IV). auto.
Qed.
Lemma select_left sel bot mx l k : preorder_on leb (bot :: l) -> max_from leb bot mx l -> select_contract sel -> 0 < k < length l ->
  kth_smallest leb (k - 1) l (fold_left mx (firstn k (sel leb l k)) bot).
Proof.
  intros PB MF SC HK. assert (PO : preorder_on leb l) by (apply (preorder_incl (bot :: l)); [intros z Hz; right; exact Hz|exact PB]).
  pose proof (SC leb l k PO (proj2 HK)) as HP.
  destruct (partition_sorted l _ k PO HP) as (r1 & v & r2 & E & L & SO).
  assert (firstn k (sel leb l k) = r1) as ->.
  { rewrite E, firstn_app, L, Nat.sub_diag. cbn [firstn]. rewrite app_nil_r. apply firstn_all2. lia. }
  assert (P1 := stable_sort_perm leb r1).
  assert (IL : incl r1 l).
  { intros z Hz. destruct SO as [PE _]. eapply Permutation_in; [apply Permutation_sym, PE|]. apply in_or_app. left.
    eapply Permutation_in; eassumption. }
  destruct (fold_max bot mx l PB MF r1 bot IL (or_introl eq_refl)) as [M1 M2].
  set (M := fold_left mx r1 bot) in *.
  assert (N1 : r1 <> []) by (intros ->; cbn in L; lia).
  assert (MI : In M r1).
  { destruct M1 as [EM|M1]; [|exact M1]. destruct r1 as [|x r1']; [easy|].
    assert (In x l) as IX by (apply IL; left; reflexivity). destruct MF as [B _]. destruct (B x IX) as [_ B2].
    rewrite <- EM in M2. rewrite (B2 (M2 x (or_intror (or_introl eq_refl)))) in *. left. exact EM. }
  destruct (nth_error (stable_sort leb r1) (k - 1)) as [w|] eqn:EW; [|apply nth_error_None in EW; rewrite stable_sort_length in EW; lia].
  assert (WI : In w r1) by (eapply Permutation_in; [apply Permutation_sym, P1|eapply nth_error_In; exact EW]).
  exists (stable_sort leb r1 ++ v :: stable_sort leb r2), w. split; [exact SO|].
  split; [rewrite nth_error_app1 by (rewrite stable_sort_length; lia); exact EW|].
  split.
  - assert (MS : In M (stable_sort leb r1)) by (eapply Permutation_in; eassumption). apply In_nth_error in MS as [i Hi].
    assert (i < length r1) by (rewrite <- (stable_sort_length leb r1); apply nth_error_Some; congruence).
    destruct (sorts_on r1 (preorder_incl l r1 IL PO)) as [_ S1].
    apply (nth_ascending (stable_sort leb r1) i (k - 1)); try assumption; [|lia].
    intros z Hz. apply (on_refl l); [exact PO|]. apply IL. eapply Permutation_in; [apply Permutation_sym, P1|exact Hz].
  - split; [apply M2; right; exact WI|apply IL, MI].
Qed.

Lemma kth_on l s k v : preorder_on leb l -> sorts leb l s -> nth_error s k = Some v -> kth_smallest leb k l v.
Proof.
  intros PO SO H. assert (In v l) as I.
  { destruct SO as [PE _]. eapply Permutation_in; [apply Permutation_sym, PE|]. eapply nth_error_In; exact H. }
  exists s, v. pose proof (on_refl l v PO I). auto.
Qed.

(* ---- counting ---- *)
Definition below (m : K) (l : list K) : nat := length (filter (fun x => negb (leb m x)) l).
Definition above (m : K) (l : list K) : nat := length (filter (fun x => negb (leb x m)) l).

Lemma filter_perm (p : K -> bool) l m : Permutation l m -> length (filter p l) = length (filter p m).
Proof.
  induction 1 as [|x l m P IH|x y l|l m n P IH P2 IH2]; cbn [filter]; try reflexivity.
  - destruct (p x); cbn [length]; lia.
  - destruct (p x), (p y); reflexivity.
  - lia.
Qed.
Lemma filter_none (p : K -> bool) l : (forall x, In x l -> p x = false) -> filter p l = [].
Proof. induction l as [|x l IH]; intro H; [reflexivity|]. cbn [filter]. rewrite H by (left; reflexivity). apply IH. intros y Hy. apply H. right. exact Hy. Qed.
Lemma filter_le (p : K -> bool) l : length (filter p l) <= length l.
Proof. induction l as [|x l IH]; cbn [filter length]; [lia|]. destruct (p x); cbn [length]; lia. Qed.
Lemma filter_incl (p q : K -> bool) l : (forall x, In x l -> p x = true -> q x = true) -> length (filter p l) <= length (filter q l).
Proof.
  induction l as [|x l IH]; intro H; cbn [filter length]; [lia|]. assert (forall y, In y l -> p y = true -> q y = true) as H' by (intros; apply H; [right|]; assumption).
  specialize (IH H'). specialize (H x (or_introl eq_refl)). destruct (p x); [rewrite H by reflexivity|destruct (q x)]; cbn [length]; lia.
Qed.
Lemma filter_both (p q : K -> bool) l : (forall x, In x l -> p x = false -> q x = true) -> length l <= length (filter p l) + length (filter q l).
Proof.
  induction l as [|x l IH]; intro H; cbn [filter length]; [lia|]. assert (forall y, In y l -> p y = false -> q y = true) as H' by (intros; apply H; [right|]; assumption).
  specialize (IH H'). specialize (H x (or_introl eq_refl)). destruct (p x); [|rewrite H by reflexivity]; destruct (q x); cbn [length] in *; try lia; discriminate (H eq_refl).
Qed.

Hypothesis TP : total_preorder leb.
Lemma kth_count l k v : kth_smallest leb k l v -> below v l <= k /\ above v l <= length l - 1 - k /\ k < length l.
Proof.
  intros (s & w & [PE SO] & Hw & L1 & L2 & _). destruct TP as [TT TR].
  assert (LN : length l = length s) by (apply Permutation_length; exact PE).
  unfold below, above. rewrite !(filter_perm _ l s PE). pose proof (nth_error_split s k Hw) as (s1 & s2 & -> & LS).
  assert (forall z, leb z z = true) as RF by (intro z; destruct (TT z z); assumption).
  rewrite !filter_app, !app_length. cbn [filter]. rewrite L1, L2. cbn [negb].
  rewrite app_length in LN. cbn [length] in LN.
  assert (N : forall i x, nth_error (s1 ++ w :: s2) i = Some x -> (k <= i -> leb w x = true) /\ (i <= k -> leb x w = true)).
  { intros i x Hx. split; intro; [apply (nth_ascending (s1 ++ w :: s2) k i)|apply (nth_ascending (s1 ++ w :: s2) i k)]; auto. }
  assert (E2 : filter (fun x => negb (leb v x)) s2 = []).
  { apply filter_none. intros x Hx. apply In_nth_error in Hx as [i Hi]. assert (leb v x = true) as ->; [|reflexivity].
    apply (TR v w x); [exact L1|]. destruct (N (S k + i) x) as [H _]; [|apply H; lia].
    rewrite nth_error_app2 by lia. replace (S k + i - length s1) with (S i) by lia. exact Hi. }
  assert (E1 : filter (fun x => negb (leb x v)) s1 = []).
  { apply filter_none. intros x Hx. apply In_nth_error in Hx as [i Hi]. assert (leb x v = true) as ->; [|reflexivity].
    assert (i < length s1) by (apply nth_error_Some; congruence).
    apply (TR x w v); [|exact L2]. destruct (N i x) as [_ H']; [rewrite nth_error_app1 by lia; exact Hi|apply H'; lia]. }
  rewrite E1, E2. cbn [length]. pose proof (filter_le (fun x => negb (leb v x)) s1). pose proof (filter_le (fun x => negb (leb x v)) s2). lia.
Qed.

Lemma median_halves mid l m : (forall x y, leb x y = true -> leb x (mid x y) = true /\ leb (mid x y) y = true) -> l <> [] ->
  is_median leb mid l m -> 2 * below m l <= length l /\ 2 * above m l <= length l.
Proof.
  intros MID NE. unfold is_median. assert (0 < length l) by (destruct l; cbn; [easy|lia]).
  pose proof (Nat.div_mod (length l) 2 ltac:(lia)) as D. destruct (Nat.even (length l)) eqn:EV.
  - apply Nat.even_spec in EV as [h EH]. assert (length l / 2 = h) as -> by (rewrite EH, Nat.mul_comm; apply Nat.div_mul; lia).
    intros (x & y & KX & KY & ->). destruct (kth_count _ _ _ KX) as (BX & AX & _), (kth_count _ _ _ KY) as (BY & AY & _).
    destruct TP as [TT TR].
    assert (leb x y = true) as XY.
    { destruct (leb x y) eqn:E; [reflexivity|]. exfalso.
      pose proof (filter_both (fun z => negb (leb x z)) (fun z => negb (leb z y)) l) as F.
      assert (length l <= below x l + above y l) as F'; [|unfold below, above in *; lia].
      apply F. intros z _ Hz. apply negb_false_iff in Hz. apply negb_true_iff. destruct (leb z y) eqn:E2; [|reflexivity].
      rewrite (TR x z y Hz E2) in E. discriminate E. }
    destruct (MID x y XY) as [M1 M2].
    assert (below (mid x y) l <= below y l).
    { apply filter_incl. intros z _ Hz. apply negb_true_iff in Hz. apply negb_true_iff. destruct (leb y z) eqn:E; [|reflexivity].
      rewrite (TR _ _ _ M2 E) in Hz. discriminate Hz. }
    assert (above (mid x y) l <= above x l).
    { apply filter_incl. intros z _ Hz. apply negb_true_iff in Hz. apply negb_true_iff. destruct (leb z x) eqn:E; [|reflexivity].
      rewrite (TR _ _ _ E M1) in Hz. discriminate Hz. }
    lia.
  - intro KM. destruct (kth_count _ _ _ KM) as (B & A & _).
    pose proof (Nat.mod_upper_bound (length l) 2 ltac:(lia)).
    assert (length l mod 2 <> 0). { intro Z. rewrite Nat.even_spec in * || idtac. assert (Nat.even (length l) = true); [|congruence]. apply Nat.even_spec. exists (length l / 2). lia. }
    lia.
Qed.
End Kth.

(* ---- the two median routines ---- *)
Section Median.
Context {K : Type}.
Variables (leb : K -> K -> bool) (two : K) (add div : K -> K -> K).
Definition mean2 (x y : K) : K := div (add x y) two.

Lemma median_sel_ok sel bot mx l : l <> [] -> preorder_on leb (bot :: l) -> max_from leb bot mx l -> select_contract sel ->
  exists m, median_sel leb two add div sel bot mx l = Ok m /\ is_median leb mean2 l m.
Proof.
  intros NE PB MF SC. assert (PO : preorder_on leb l) by (apply (preorder_incl leb (bot :: l)); [intros z Hz; right; exact Hz|exact PB]).
  assert (0 < length l) by (destruct l; cbn; [easy|lia]). assert (length l / 2 < length l) by (apply Nat.div_lt; lia).
  unfold median_sel, is_median. destruct (select_kth leb sel l (length l / 2) PO SC) as (v & Ev & KV); [assumption|].
  unfold at_. rewrite Ev. cbn [bind]. destruct (Nat.even (length l)) eqn:EV; [|exists v; split; [reflexivity|exact KV]].
  eexists. split; [reflexivity|]. exists (fold_left mx (firstn (length l / 2) (sel leb l (length l / 2))) bot), v.
  split; [|split; [exact KV|reflexivity]]. apply select_left; try assumption.
  apply Nat.even_spec in EV as [h EH]. rewrite EH, Nat.mul_comm, Nat.div_mul by lia. lia.
Qed.

Lemma median_sorted_ok l : l <> [] -> preorder_on leb l -> exists m, median_sorted leb two add div l = Ok m /\ is_median leb mean2 l m.
Proof.
  intros NE PO. assert (0 < length l) by (destruct l; cbn; [easy|lia]). assert (length l / 2 < length l) by (apply Nat.div_lt; lia).
  pose proof (sorts_on leb l PO) as SO. unfold median_sorted, is_median, at_.
  assert (forall k, k < length l -> exists v, nth_error (stable_sort leb l) k = Some v /\ kth_smallest leb k l v) as G.
  { intros k Hk. destruct (nth_error (stable_sort leb l) k) as [v|] eqn:E; [|apply nth_error_None in E; rewrite stable_sort_length in E; lia].
    exists v. split; [reflexivity|]. apply (kth_on leb l (stable_sort leb l)); assumption. }
  destruct (G (length l / 2)) as (v & Ev & KV); [assumption|]. destruct (Nat.even (length l)) eqn:EV.
  - destruct (G (length l / 2 - 1)) as (u & Eu & KU); [lia|]. rewrite Eu, Ev. cbn [bind]. eexists. split; [reflexivity|].
    exists u, v. auto.
  - rewrite Ev. exists v. split; [reflexivity|exact KV].
Qed.
End Median.
