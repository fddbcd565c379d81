(* Fisher-Yates, shuffling rows in place, choice without replacement. *)
From Coq Require Import Permutation FinFun.
From Verif Require Import Base Lists Arr_Spec Arr_Model Arr_Wf Arr_Proofs Copy_Model Idx_Model F64_Model Rng_Spec Rng_Model Rng_Proofs.
Local Open Scope nat_scope.

Definition transp (i j k : nat) : nat := if k =? j then i else if k =? i then j else k.
Lemma transp_inj i j a b : transp i j a = transp i j b -> a = b.
Proof. unfold transp. destruct (Nat.eqb_spec a j), (Nat.eqb_spec b j), (Nat.eqb_spec a i), (Nat.eqb_spec b i); subst; lia. Qed.
Lemma swap_ok {A} (l : list A) i j : i < length l -> j < length l ->
  exists l', swap l i j = Ok l' /\ Permutation l l' /\ length l' = length l /\
    forall k, nth_error l' k = nth_error l (transp i j k).
Proof.
  intros Hi Hj. unfold swap.
  destruct (nth_error l i) as [x|] eqn:Ex; [|apply nth_error_None in Ex; lia].
  destruct (nth_error l j) as [y|] eqn:Ey; [|apply nth_error_None in Ey; lia].
  assert (N : forall k, nth_error (upd (upd l i y) j x) k = nth_error l (transp i j k)).
  { intros k. unfold transp. destruct (Nat.eqb_spec k j) as [->|Hkj].
    - rewrite nth_error_upd_eq by (rewrite upd_length; lia). congruence.
    - rewrite nth_error_upd_neq by lia. destruct (Nat.eqb_spec k i) as [->|Hki].
      + rewrite nth_error_upd_eq by lia. congruence.
      + rewrite nth_error_upd_neq by lia. reflexivity. }
  exists (upd (upd l i y) j x). split; [reflexivity|]. split; [|split; [rewrite !upd_length; reflexivity|exact N]].
  apply Permutation_nth_error. split; [rewrite !upd_length; reflexivity|].
  exists (transp i j). split; [|exact N]. intros a b. apply transp_inj.
Qed.
Lemma swap_bounds {A} (l l' : list A) i j : swap l i j = Ok l' -> i < length l /\ j < length l.
Proof.
  unfold swap. intro H. split; apply nth_error_Some; intro E; rewrite E in H; [|destruct (nth_error l i)]; discriminate.
Qed.
Lemma rev_seq_S a m : rev (seq a (S m)) = (a + m) :: rev (seq a m).
Proof. rewrite seq_S, rev_app_distr. reflexivity. Qed.

Lemma loop_perm {A} m : forall (data : list A) js, m < length data -> Forall2 lt js (rev (seq 2 m)) ->
  exists data', shuffle_loop pop swap (rev (seq 1 m)) data js = Ok (data', []) /\ Permutation data data' /\
    forall k, m < k -> nth_error data' k = nth_error data k.
Proof.
  induction m as [|m IH]; intros data js Hm F.
  - cbn [seq rev] in *. inversion F; subst. exists data. cbn. repeat split; auto.
  - rewrite !rev_seq_S in *. inversion F as [|j b js' bs Hj F' E1 E2]; subst. cbn [shuffle_loop pop bind fst snd].
    destruct (swap_ok data (1 + m) j) as (d1 & E & P & L & N); [lia|lia|]. rewrite E. cbn [bind].
    destruct (IH d1 js' ltac:(lia) F') as (d2 & E2 & P2 & N2). rewrite E2. exists d2. split; [reflexivity|]. split.
    + eapply Permutation_trans; eassumption.
    + intros k Hk. rewrite N2, N by lia. unfold transp. destruct (Nat.eqb_spec k j); [lia|]. destruct (Nat.eqb_spec k (1 + m)); [lia|reflexivity].
Qed.

Lemma loop_onto {A} m : forall (data l' : list A), m < length data -> NoDup data -> Permutation data l' ->
  (forall k, m < k -> nth_error l' k = nth_error data k) ->
  exists js, Forall2 lt js (rev (seq 2 m)) /\ shuffle_loop pop swap (rev (seq 1 m)) data js = Ok (l', []) /\
    forall js', Forall2 lt js' (rev (seq 2 m)) -> shuffle_loop pop swap (rev (seq 1 m)) data js' = Ok (l', []) -> js' = js.
Proof.
  induction m as [|m IH]; intros data l' Hm ND P AG.
  - exists []. cbn [seq rev shuffle_loop]. split; [constructor|]. split.
    + destruct data as [|x t]; [cbn in Hm; lia|]. destruct l' as [|y t'].
      { apply Permutation_sym, Permutation_nil in P. discriminate. }
      assert (t' = t) as ->.
      { apply nth_error_ext. intro k. specialize (AG (S k) ltac:(lia)). exact AG. }
      change (x :: t) with ([x] ++ t) in P. change (y :: t) with ([y] ++ t) in P.
      apply Permutation_app_inv_r, Permutation_length_1 in P. now subst.
    + intros js' F _. inversion F. reflexivity.
  - assert (length l' = length data) as HL by (symmetry; now apply Permutation_length).
    assert (NoDup l') as ND' by (eapply Permutation_NoDup; eassumption).
    destruct (nth_error l' (S m)) as [x|] eqn:Ex; [|apply nth_error_None in Ex; lia].
    assert (In x data) as Hin by (eapply Permutation_in; [apply Permutation_sym; exact P | eapply nth_error_In; exact Ex]).
    apply In_nth_error in Hin. destruct Hin as (j & Ej).
    assert (j < length data) as Hj by (apply nth_error_Some; congruence).
    assert (j <= S m) as Hj'.
    { destruct (Nat.le_gt_cases j (S m)) as [|G]; [assumption|]. exfalso.
      assert (S m = j); [|lia]. apply (proj1 (NoDup_nth_error l') ND'); [lia|]. rewrite Ex, AG by lia. now rewrite Ej. }
    destruct (swap_ok data (S m) j) as (d1 & E & P1 & L1 & N1); [lia|lia|].
    assert (NoDup d1) as ND1 by (eapply Permutation_NoDup; eassumption).
    assert (Permutation d1 l') as P2 by (eapply Permutation_trans; [apply Permutation_sym; exact P1 | exact P]).
    destruct (IH d1 l' ltac:(lia) ND1 P2) as (js & F & EJ & U).
    { intros k Hk. rewrite N1. unfold transp. destruct (Nat.eq_dec k (S m)) as [->|Hne].
      - rewrite Ex. destruct (Nat.eqb_spec (S m) j) as [<-|]; [symmetry; exact Ej|]. rewrite Nat.eqb_refl. now rewrite Ej.
      - destruct (Nat.eqb_spec k j); [lia|]. destruct (Nat.eqb_spec k (S m)); [lia|]. apply AG. lia. }
    exists (j :: js). rewrite !rev_seq_S. split; [constructor; [lia | exact F]|]. split.
    + cbn [shuffle_loop pop bind fst snd]. change (1 + m) with (S m). rewrite E. exact EJ.
    + intros js' F'. inversion F' as [|j' b js1 bs Hj1 F1 E1 E2]; subst. cbn [shuffle_loop pop bind fst snd]. change (1 + m) with (S m).
      destruct (swap_ok data (S m) j') as (d2 & E2 & P3 & L2 & N2); [lia|lia|]. rewrite E2. cbn [bind]. intro H.
      assert (j' = j) as ->.
      { destruct (loop_perm m d2 js1 ltac:(lia) F1) as (d3 & E3 & P4 & N3). rewrite E3 in H. injection H as ->.
        specialize (N3 (S m) ltac:(lia)). rewrite N2, Ex in N3.
        apply (proj1 (NoDup_nth_error data) ND); [lia|]. rewrite Ej. rewrite N3. unfold transp.
        destruct (Nat.eqb_spec (S m) j') as [<-|]; [reflexivity|]. now rewrite Nat.eqb_refl. }
      rewrite E in E2. injection E2 as <-. f_equal. now apply U.
Qed.

(* ---- real draws are legal draws ------------------------------------------------- *)
Lemma loop_draws {A D} (draw : nat -> D -> res (nat * D)) (exch : A -> nat -> nat -> res A) N :
  (forall r d j d', 0 < r -> r <= N -> draw r d = Ok (j, d') -> j < r) ->
  forall is data d data' d', Forall (fun i => i < N) is -> shuffle_loop draw exch is data d = Ok (data', d') ->
  exists js, Forall2 lt js (map S is) /\ shuffle_loop pop exch is data js = Ok (data', []).
Proof.
  intros HD. induction is as [|i is IH]; intros data d data' d' FI H; cbn [shuffle_loop] in H.
  - injection H as <- <-. exists []. split; [constructor | reflexivity].
  - inversion FI as [|? ? Hi FI']; subst. destruct (draw (i + 1) d) as [[j d1]| | |] eqn:Ed; try discriminate. cbn [bind fst snd] in H.
    destruct (exch data i j) as [data1| | |] eqn:Ee; try discriminate. cbn [bind] in H.
    destruct (IH data1 d1 data' d' FI' H) as (js & F & E). exists (j :: js). split.
    + cbn [map]. constructor; [|exact F]. specialize (HD (i + 1) d j d1 ltac:(lia) ltac:(lia) Ed). lia.
    + cbn [shuffle_loop pop bind fst snd]. rewrite Ee. exact E.
Qed.
Lemma map_S_rev_seq m : map S (rev (seq 1 m)) = rev (seq 2 m).
Proof. rewrite map_rev, seq_shift. reflexivity. Qed.
Lemma rev_seq_lt n : Forall (fun i => i < n) (rev (seq 1 (n - 1))).
Proof. apply Forall_forall. intros i Hi. apply in_rev, in_seq in Hi. lia. Qed.
Lemma draw_u64_lt {G} (next : G -> Z * G) fuel N : (forall g, u64 (fst (next g))) -> (Z.of_nat N < 2 ^ 64)%Z ->
  forall r d j d', 0 < r -> r <= N -> draw_u64 next fuel r d = Ok (j, d') -> j < r.
Proof.
  intros Hn HN r d j d' Hr HrN H. unfold draw_u64 in H.
  destruct (bounded next fuel (Z.of_nat r) d) as [[v g]| | |] eqn:E; try discriminate. cbn [bind fst snd] in H.
  injection H as <- <-. apply bounded_range in E; [lia | exact Hn | lia].
Qed.

(* ---- rows ------------------------------------------------------------------------- *)
Lemma row_eq row q k q' k' : k < row -> k' < row -> q * row + k = q' * row + k' -> q = q' /\ k = k'.
Proof.
  intros Hk Hk' E. assert (q = q') as ->; [|lia].
  apply (f_equal (fun z => z / row)) in E. rewrite !Nat.div_add_l, !Nat.div_small in E by lia. lia.
Qed.
Lemma row_eqb row q k q' k' : k < row -> k' < row -> (q * row + k =? q' * row + k') = (q =? q') && (k =? k').
Proof.
  intros Hk Hk'. destruct (Nat.eqb_spec (q * row + k) (q' * row + k')) as [E|E].
  - apply row_eq in E as (-> & ->); [|assumption|assumption]. now rewrite !Nat.eqb_refl.
  - symmetry. apply andb_false_iff. destruct (Nat.eqb_spec q q'); [|now left]. destruct (Nat.eqb_spec k k'); [subst; tauto|now right].
Qed.
Lemma swap_rows_ok {A} row n i j (Hi : i < n) (Hj : j < n) : forall ks (data : list A), length data = n * row -> NoDup ks -> Forall (fun k => k < row) ks ->
  exists data', swap_rows ks row data i j = Ok data' /\ length data' = n * row /\
    forall q k, k < row -> nth_error data' (q * row + k) = nth_error data ((if in_dec Nat.eq_dec k ks then transp i j q else q) * row + k).
Proof.
  induction ks as [|k0 ks IH]; intros data HL ND FK.
  - exists data. cbn [swap_rows]. repeat split; auto.
  - inversion ND as [|? ? Nin ND']; subst. inversion FK as [|? ? Hk0 FK']; subst. cbn [swap_rows].
    destruct (swap_ok data (i * row + k0) (j * row + k0)) as (d1 & E & P & L & N); [nia|nia|]. rewrite E. cbn [bind].
    destruct (IH d1 ltac:(lia) ND' FK') as (d2 & E2 & L2 & N2). rewrite E2. exists d2. split; [reflexivity|]. split; [exact L2|].
    intros q k Hk. rewrite N2 by exact Hk. rewrite N.
    assert (forall q', transp (i * row + k0) (j * row + k0) (q' * row + k) = (if Nat.eq_dec k k0 then transp i j q' else q') * row + k) as T.
    { intro q'. unfold transp. rewrite !row_eqb by assumption. destruct (Nat.eq_dec k k0) as [->|Hne].
      - rewrite Nat.eqb_refl, !andb_true_r. destruct (q' =? j); [reflexivity|]. now destruct (q' =? i).
      - apply Nat.eqb_neq in Hne. rewrite Hne, !andb_false_r. reflexivity. }
    rewrite T. destruct (in_dec Nat.eq_dec k (k0 :: ks)) as [J|J], (in_dec Nat.eq_dec k ks) as [I|I], (Nat.eq_dec k k0) as [Ek|Ek];
      cbn [In] in J; try reflexivity; exfalso; subst; try tauto. destruct J as [J|J]; [congruence | tauto].
Qed.

Section Rows.
Context {A : Type}.
Variables (row n : nat) (data0 : list A).
Definition rows_of (data : list A) (ps : list nat) : Prop :=
  length data = n * row /\ forall i p k, k < row -> nth_error ps i = Some p -> nth_error data (i * row + k) = nth_error data0 (p * row + k).
Lemma loop_rows : forall is (data : list A) ps js ps' js', length ps = n -> rows_of data ps ->
  shuffle_loop pop swap is ps js = Ok (ps', js') ->
  exists data', shuffle_loop pop (swap_rows (seq 0 row) row) is data js = Ok (data', js') /\ rows_of data' ps'.
Proof using Type.
  induction is as [|i is IH]; intros data ps js ps' js' HL R H; cbn [shuffle_loop] in *.
  - injection H as <- <-. exists data. split; [reflexivity | exact R].
  - destruct js as [|j js1]; [discriminate|]. cbn [pop bind fst snd] in *.
    destruct (swap ps i j) as [ps1| | |] eqn:E; try discriminate. cbn [bind] in H.
    destruct (swap_bounds _ _ _ _ E) as (Hi & Hj). destruct (swap_ok ps i j Hi Hj) as (ps2 & E2 & _ & L2 & N2).
    rewrite E in E2. injection E2 as <-. destruct R as (RL & RN).
    destruct (swap_rows_ok row n i j ltac:(lia) ltac:(lia) (seq 0 row) data RL (seq_NoDup _ _)) as (d1 & E1 & L1 & N1).
    { apply Forall_forall. intros k Hk. apply in_seq in Hk. lia. }
    rewrite E1. cbn [bind]. apply (IH d1 ps1 js1 ps' js' ltac:(lia)); [|exact H]. split; [exact L1|].
    intros q p k Hk Hp. rewrite N1 by exact Hk. rewrite N2 in Hp.
    destruct (in_dec Nat.eq_dec k (seq 0 row)) as [_|I]; [|exfalso; apply I, in_seq; lia]. apply RN; assumption.
Qed.
End Rows.
Lemma loop_ext {A D} (draw : nat -> D -> res (nat * D)) (e1 e2 : A -> nat -> nat -> res A) :
  (forall a i j, e1 a i j = e2 a i j) -> forall is data d, shuffle_loop draw e1 is data d = shuffle_loop draw e2 is data d.
Proof.
  intros H. induction is as [|i is IH]; intros data d; cbn [shuffle_loop]; [reflexivity|].
  destruct (draw (i + 1) d) as [[j d1]| | |]; cbn [bind fst snd]; try reflexivity. rewrite H. destruct (e2 data i j); cbn [bind]; auto.
Qed.
Lemma swap_rows_1 {A} (data : list A) i j : swap_rows (seq 0 1) 1 data i j = swap data i j.
Proof. cbn [seq swap_rows]. rewrite !Nat.mul_1_r, !Nat.add_0_r. destruct (swap data i j); reflexivity. Qed.

(* ---- choice without replacement ---------------------------------------------------- *)
Lemma swap_remove_ok {A} (l : list A) j x : nth_error l j = Some x ->
  exists l', swap_remove l j = Ok (x, l') /\ Permutation l (x :: l').
Proof.
  intro E. unfold swap_remove. rewrite E. eexists. split; [reflexivity|].
  assert (j < length l) as Hj by (apply nth_error_Some; congruence).
  destruct (exists_last (l := l)) as (t & z & ->); [intro Z; subst l; cbn in Hj; lia|].
  rewrite last_last, app_length in *. cbn [length] in *. replace (length t + 1 - 1) with (length t) by lia.
  destruct (Nat.eq_dec j (length t)) as [->|Hne].
  - rewrite nth_error_app2, Nat.sub_diag in E by lia. cbn in E. injection E as ->.
    rewrite upd_app_r, Nat.sub_diag by lia. cbn [upd]. rewrite firstn_app, Nat.sub_diag, firstn_all, firstn_O, app_nil_r.
    apply Permutation_sym, Permutation_cons_append.
  - rewrite nth_error_app1 in E by lia. rewrite upd_app_l by lia.
    rewrite firstn_app, upd_length, Nat.sub_diag, firstn_O, app_nil_r, firstn_all2 by (rewrite upd_length; lia).
    apply nth_error_split in E. destruct E as (l1 & l2 & -> & <-).
    rewrite upd_app_r, Nat.sub_diag by lia. cbn [upd].
    transitivity (z :: l1 ++ x :: l2); [apply Permutation_sym, Permutation_cons_append|].
    transitivity (z :: x :: l1 ++ l2); [constructor; apply Permutation_sym, Permutation_middle|].
    transitivity (x :: z :: l1 ++ l2); [constructor|]. constructor. apply Permutation_middle.
Qed.
Lemma choice_run n k : forall i avail js, length avail = n - i -> i + k <= n -> NoDup avail ->
  Forall2 lt js (map (fun i => n - i) (seq i k)) ->
  exists out, choice_loop pop (seq i k) n avail js = Ok (out, []) /\ length out = k /\ NoDup out /\ incl out avail.
Proof.
  induction k as [|k IH]; intros i avail js HL Hk ND F; cbn [seq map] in F; inversion F as [|j b js' bs Hj F' E1 E2]; subst; cbn [seq choice_loop].
  - exists []. repeat split; [constructor | intros x []].
  - cbn [pop bind fst snd]. destruct (nth_error avail j) as [x|] eqn:Ex; [|apply nth_error_None in Ex; lia].
    destruct (swap_remove_ok avail j x Ex) as (av & E & P). rewrite E. cbn [bind fst snd].
    assert (NoDup (x :: av)) as ND' by (eapply Permutation_NoDup; eassumption). inversion ND' as [|? ? Nx ND1]; subst.
    assert (length avail = S (length av)) as HL' by (apply Permutation_length in P; exact P).
    destruct (IH (S i) av js' ltac:(lia) ltac:(lia) ND1 F') as (out & EO & LO & NO & IO). rewrite EO. cbn [bind fst snd].
    exists (x :: out). split; [reflexivity|]. split; [cbn; lia|]. split.
    + constructor; [|exact NO]. intro I. apply Nx, IO, I.
    + intros y [<-|Hy]; [eapply nth_error_In; exact Ex|]. eapply Permutation_in; [apply Permutation_sym; exact P|]. right. now apply IO.
Qed.
Lemma choice_onto n k : forall i avail out, length avail = n - i -> i + k <= n -> NoDup avail ->
  length out = k -> NoDup out -> incl out avail ->
  exists js, Forall2 lt js (map (fun i => n - i) (seq i k)) /\ choice_loop pop (seq i k) n avail js = Ok (out, []) /\
    forall js', Forall2 lt js' (map (fun i => n - i) (seq i k)) -> choice_loop pop (seq i k) n avail js' = Ok (out, []) -> js' = js.
Proof.
  induction k as [|k IH]; intros i avail out HL Hk ND LO NO IO.
  - destruct out; [|discriminate]. exists []. cbn [seq map choice_loop]. split; [constructor|]. split; [reflexivity|].
    intros js' F _. inversion F. reflexivity.
  - destruct out as [|x out]; [discriminate|]. cbn [seq map choice_loop]. inversion NO as [|? ? Nx NO']; subst.
    destruct (In_nth_error avail x (IO x (or_introl eq_refl))) as (j & Ej).
    assert (j < length avail) as Hj by (apply nth_error_Some; congruence).
    destruct (swap_remove_ok avail j x Ej) as (av & E & P).
    assert (NoDup (x :: av)) as ND' by (eapply Permutation_NoDup; eassumption). inversion ND' as [|? ? Nx' ND1]; subst.
    assert (length avail = S (length av)) as HL' by (apply Permutation_length in P; exact P).
    destruct (IH (S i) av out ltac:(lia) ltac:(lia) ND1 ltac:(cbn in LO; lia) NO') as (js & F & EO & U).
    { intros y Hy. assert (In y (x :: av)) as [<-|I] by (eapply Permutation_in; [exact P | apply IO; now right]); [tauto | exact I]. }
    exists (j :: js). split; [constructor; [lia | exact F]|]. split.
    + cbn [pop bind fst snd]. rewrite E. cbn [bind fst snd]. rewrite EO. reflexivity.
    + intros js' F'. inversion F' as [|j' b js1 bs Hj' F1 E1 E2]; subst. cbn [pop bind fst snd].
      destruct (nth_error avail j') as [y|] eqn:Ey; [|apply nth_error_None in Ey; lia].
      destruct (swap_remove_ok avail j' y Ey) as (av' & E' & _). rewrite E'. cbn [bind fst snd].
      destruct (choice_loop pop (seq (S i) k) n av' js1) as [[o r]| | |] eqn:EC; try discriminate. cbn [bind fst snd].
      intro H. injection H as -> -> ->.
      assert (j' = j) as -> by (apply (proj1 (NoDup_nth_error avail) ND); [lia | congruence]).
      rewrite E in E'. injection E' as <-. f_equal. now apply U.
Qed.
Lemma choice_legal {D} (draw : nat -> D -> res (nat * D)) n :
  (forall r d j d', 0 < r -> r <= n -> draw r d = Ok (j, d') -> j < r) ->
  forall k i avail d out d', i + k <= n -> choice_loop draw (seq i k) n avail d = Ok (out, d') ->
  exists js, Forall2 lt js (map (fun i => n - i) (seq i k)) /\ choice_loop pop (seq i k) n avail js = Ok (out, []).
Proof.
  intros HD. induction k as [|k IH]; intros i avail d out d' Hk H; cbn [seq choice_loop map] in *.
  - injection H as <- <-. exists []. split; [constructor | reflexivity].
  - destruct (draw (n - i) d) as [[j d1]| | |] eqn:Ed; try discriminate. cbn [bind fst snd] in H.
    destruct (swap_remove avail j) as [[x av]| | |] eqn:Es; try discriminate. cbn [bind fst snd] in H.
    destruct (choice_loop draw (seq (S i) k) n av d1) as [[o r]| | |] eqn:EC; try discriminate. cbn [bind fst snd] in H.
    injection H as <- <-. destruct (IH (S i) av d1 o r ltac:(lia) EC) as (js & F & E).
    exists (j :: js). split; [constructor; [apply (HD _ d j d1); [lia|lia|exact Ed] | exact F]|].
    cbn [pop bind fst snd]. rewrite Es. cbn [bind fst snd]. rewrite E. reflexivity.
Qed.

(* ---- shuffle of a contiguous array --------------------------------------------------- *)
Lemma contig_get {V} (buf buf' : list V) a idx : wf buf a -> a_c a = true -> inb idx (a_shape a) -> a_item a = 8%Z ->
  get buf' a idx = nth_error buf' (Z.to_nat (a_off a / 8) + rank (a_shape a) idx).
Proof.
  intros W Hc Hi H8. destruct W as (_ & _ & HO & HS & HG & HC & _). destruct (HG idx Hi) as (v & Ev).
  unfold get in *. rewrite H8 in *. unfold byte_offset_for in *.
  rewrite (c_contig_dot _ _ 8 idx HS Hi) in * by (apply HC; exact Hc).
  assert (exists o, a_off a = 8 * Z.of_nat o)%Z as (o & Eo).
  { unfold load in Ev. destruct (Z.ltb_spec (a_off a + 8 * Z.of_nat (rank (a_shape a) idx)) 0); [discriminate|].
    destruct (Z.eqb_spec ((a_off a + 8 * Z.of_nat (rank (a_shape a) idx)) mod 8) 0) as [M|]; [|discriminate].
    exists (Z.to_nat (a_off a / 8)). rewrite Z.mul_comm, Z.add_comm, Z.add_comm, Z.mul_comm, <- Z.mul_comm, Z.mod_add in M by lia.
    pose proof (Z.div_mod (a_off a) 8). lia. }
  rewrite Eo. replace (8 * Z.of_nat o / 8)%Z with (Z.of_nat o) by (rewrite Z.mul_comm, Z.div_mul; lia).
  rewrite Nat2Z.id. replace (8 * Z.of_nat o + 8 * Z.of_nat (rank (a_shape a) idx))%Z with (8 * Z.of_nat (o + rank (a_shape a) idx))%Z by lia.
  apply load_at. lia.
Qed.
Lemma contig_room {V} (buf : list V) a : wf buf a -> a_c a = true -> a_item a = 8%Z -> 0 < size a ->
  Z.to_nat (a_off a / 8) + size a <= length buf.
Proof.
  intros W Hc H8 Hs. unfold size in *.
  assert (inb (unrank (a_shape a) (prod (a_shape a) - 1)) (a_shape a)) as Hi by (apply unrank_inb; lia).
  pose proof (contig_get buf buf a _ W Hc Hi H8) as E. destruct W as (_ & _ & _ & _ & HG & _). destruct (HG _ Hi) as (v & Ev).
  rewrite Ev, rank_unrank in E by lia. symmetry in E. assert (nth_error buf (Z.to_nat (a_off a / 8) + (prod (a_shape a) - 1)) <> None) as HN by congruence.
  apply nth_error_Some in HN. lia.
Qed.
Lemma shuffle_contig {V} (buf : list V) a n rest js ps : wf buf a -> a_c a = true -> a_item a = 8%Z -> a_shape a = n :: rest ->
  shuffle_draws n js -> shuffle_data pop (seq 0 n) js = Ok (ps, []) -> 2 <= n -> 0 < prod rest ->
  exists buf', shuffle pop buf a js = Ok (buf', []) /\ length buf' = length buf /\
    (forall i p t, inb t rest -> nth_error ps i = Some p -> get buf' a (i :: t) = get buf a (p :: t)) /\
    (forall q, q < Z.to_nat (a_off a / 8) \/ Z.to_nat (a_off a / 8) + size a <= q -> nth_error buf' q = nth_error buf q).
Proof.
  intros W Hc H8 Hsh HJ HP Hn Hr. set (start := Z.to_nat (a_off a / 8)).
  assert (size a = n * prod rest) as Hsz by (unfold size; rewrite Hsh; reflexivity).
  pose proof (contig_room buf a W Hc H8 ltac:(nia)) as Hroom. fold start in Hroom.
  unfold shuffle. rewrite Hsh. destruct (Nat.leb_spec n 1); [lia|]. fold start.
  destruct (Nat.ltb_spec (length buf) (start + size a)); [lia|].
  set (data := firstn (size a) (skipn start buf)).
  assert (length data = n * prod rest) as HLd by (unfold data; rewrite firstn_length, skipn_length; lia).
  unfold shuffle_data in HP. rewrite seq_length in HP.
  destruct (loop_rows (prod rest) n data (rev (seq 1 (n - 1))) data (seq 0 n) js ps []) as (d' & E & RL & RN).
  { apply seq_length. }
  { split; [exact HLd|]. intros i p k Hk Hp. assert (i < length (seq 0 n)) as Hi by (apply nth_error_Some; congruence). rewrite seq_length in Hi.
    rewrite nth_error_seq in Hp. apply Nat.ltb_lt in Hi. rewrite Hi in Hp. injection Hp as <-. reflexivity. }
  { exact HP. }
  assert (shuffle_loop pop (match rest with [] => swap | _ => swap_rows (seq 0 (prod rest)) (prod rest) end) (rev (seq 1 (n - 1))) data js = Ok (d', [])) as E'.
  { destruct rest; [|exact E]. rewrite <- E. apply loop_ext. intros x i j. symmetry. apply swap_rows_1. }
  rewrite E'. cbn [bind fst snd].
  set (buf' := firstn start buf ++ d' ++ skipn (start + size a) buf). exists buf'. split; [reflexivity|].
  assert (length buf' = length buf) as HLb by (unfold buf'; rewrite !app_length, firstn_length, skipn_length; lia).
  assert (forall q, q < n * prod rest -> nth_error buf' (start + q) = nth_error d' q) as Hin.
  { intros q Hq. unfold buf'. rewrite nth_error_app2 by (rewrite firstn_length; lia). rewrite firstn_length.
    replace (start + q - Nat.min start (length buf)) with q by lia. rewrite nth_error_app1 by lia. reflexivity. }
  assert (forall q, q < n * prod rest -> nth_error buf (start + q) = nth_error data q) as Hdat.
  { intros q Hq. unfold data. rewrite <- (firstn_skipn start buf) at 1. rewrite nth_error_app2 by (rewrite firstn_length; lia).
    rewrite firstn_length. replace (start + q - Nat.min start (length buf)) with q by lia.
    rewrite <- (firstn_skipn (size a) (skipn start buf)) at 1. rewrite nth_error_app1; [reflexivity|]. rewrite firstn_length, skipn_length. lia. }
  split; [exact HLb|]. split.
  - intros i p t Ht Hp.
    assert (i < n /\ p < n) as (Hi & Hpn).
    { destruct (loop_perm (n - 1) (seq 0 n) js) as (ps' & EP & PP & _); [rewrite seq_length; lia | exact HJ|].
      rewrite HP in EP. injection EP as <-. split.
      - apply Permutation_length in PP. rewrite seq_length in PP. rewrite PP. apply nth_error_Some. congruence.
      - apply nth_error_In in Hp. eapply Permutation_in in Hp; [|apply Permutation_sym; exact PP]. apply in_seq in Hp. lia. }
    pose proof (rank_lt rest t Ht) as Hk.
    rewrite !(contig_get buf) by (try assumption; rewrite Hsh; constructor; assumption). rewrite Hsh. cbn [rank]. fold start.
    rewrite Hin, Hdat by nia. apply RN; assumption.
  - intros q Hq. unfold buf'. destruct Hq as [Hq|Hq].
    + rewrite nth_error_app1 by (rewrite firstn_length; lia). rewrite <- (firstn_skipn start buf) at 2.
      rewrite nth_error_app1 by (rewrite firstn_length; lia). reflexivity.
    + assert (nth_error buf q = nth_error (skipn (start + size a) buf) (q - (start + size a))) as ->.
      { rewrite <- (firstn_skipn (start + size a) buf) at 1. rewrite nth_error_app2 by (rewrite firstn_length; lia). rewrite firstn_length. f_equal. lia. }
      rewrite !nth_error_app2 by (rewrite ?firstn_length; lia). rewrite firstn_length, RL. f_equal. lia.
Qed.
