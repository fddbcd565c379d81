(* Differences along an axis. *)
From Coq Require Import SpecFloat.
From Verif Require Import Idx_Proofs Idx_Assign.
From Verif Require Import Base Lists Arr_Spec Arr_Model Arr_Wf Arr_Proofs Copy_Model Copy_Proofs Elem_Model Elem_Proofs Int_Model Int_Proofs F64_Model F64_Proofs Red_Spec Red_Model Red_Proofs Red_Scan Promo_Spec Promo_Model Promo_Proofs SF_Proofs SF_Arith Cast_Spec Cast_Model Cast_SF Cast_Proofs Bitw_Spec Bitw_Model Bitw_Proofs Rnd_Model Rnd_Proofs Ari_Spec Ari_Model Ari_Proofs Cpx_Model Cum_Spec Cum_Model.
Local Open Scope nat_scope.

Section Diff.
Context {V : Type}.
Variables (fast slow : V -> V -> V) (buf : list V) (a : arr) (axis n : nat).
Hypothesis W : wf buf a.
Hypothesis Hn : nth_error (a_shape a) axis = Some n.
Hypothesis H1 : 1 < n.
Let sh' := upd (a_shape a) axis (n - 1).

(* the next index along the axis *)
Definition next_along (idx : list nat) : list nat := upd idx axis (nth axis idx 0 + 1).
Lemma next_inb idx : inb idx sh' -> inb idx (a_shape a) /\ inb (next_along idx) (a_shape a) /\ nth_error idx axis = Some (nth axis idx 0) /\ nth axis idx 0 + 1 < n.
Proof.
  intros Hi. assert (HA : axis < length (a_shape a)) by (apply nth_error_Some; congruence).
  pose proof (inb_length _ _ Hi) as HLi. unfold sh' in HLi. rewrite upd_length in HLi.
  destruct (nth_error idx axis) as [j|] eqn:Ej; [|apply nth_error_None in Ej; lia].
  rewrite (nth_error_nth idx axis 0 Ej). unfold next_along. rewrite (nth_error_nth idx axis 0 Ej).
  assert (Hj : j < n - 1) by (apply (inb_nth idx sh' axis); [exact Hi|exact Ej|unfold sh'; apply nth_error_upd_eq; exact HA]).
  assert (HI' : inb idx (a_shape a)).
  { apply inb_iff_nth. split; [exact HLi|]. intros k i s Hk1 Hk2. destruct (Nat.eq_dec k axis) as [->|Hk].
    - rewrite Ej in Hk1. rewrite Hn in Hk2. injection Hk1 as <-. injection Hk2 as <-. lia.
    - apply (inb_nth idx sh' k i s Hi Hk1). unfold sh'. rewrite nth_error_upd_neq by exact Hk. exact Hk2. }
  split; [exact HI'|]. split; [|split; [reflexivity|lia]].
  apply inb_iff_nth. split; [rewrite upd_length; exact HLi|]. intros k i s Hk1 Hk2.
  destruct (Nat.eq_dec k axis) as [->|Hk].
  - rewrite nth_error_upd_eq in Hk1 by lia. rewrite Hn in Hk2. injection Hk1 as <-. injection Hk2 as <-. lia.
  - rewrite nth_error_upd_neq in Hk1 by exact Hk. exact (inb_nth idx (a_shape a) k i s HI' Hk1 Hk2).
Qed.

Variable d : V.
Definition value_at (idx : list nat) : V := match get buf a idx with Some v => v | None => d end.
Lemma value_at_ok idx : inb idx (a_shape a) -> get buf a idx = Some (value_at idx).
Proof. intros I. destruct W as (_ & _ & _ & _ & G & _). destruct (G idx I) as [v E]. unfold value_at. rewrite E. reflexivity. Qed.

Lemma diff_data_spec : exists D, (D = fast \/ D = slow) /\ (ndim a = 1 -> a_c a = true -> D = fast) /\ (ndim a <> 1 \/ a_c a = false -> D = slow) /\
  diff_data fast slow buf a axis n = Ok (map (fun idx => D (value_at (next_along idx)) (value_at idx)) (all_idx sh')).
Proof.
  assert (HA : axis < length (a_shape a)) by (apply nth_error_Some; congruence).
  destruct (strides_at buf a axis n W Hn) as [st Hs]. unfold diff_data. fold sh'.
  assert (Hc0 : forall D, prod sh' = 0 -> Ok (@nil V) = Ok (map (fun idx => D (value_at (next_along idx)) (value_at idx)) (all_idx sh'))).
  { intros D H0. f_equal. pose proof (all_idx_length sh') as L. rewrite H0 in L. destruct (all_idx sh'); [reflexivity|discriminate L]. }
  destruct ((ndim a =? 1) && a_c a) eqn:E1.
  - exists fast. split; [left; reflexivity|]. split; [auto|]. apply andb_prop in E1 as [E1 Hc]. apply Nat.eqb_eq in E1. split; [intros [A|A]; [lia|congruence]|].
    destruct (Nat.eqb_spec (prod sh') 0) as [H0|H0]; [apply Hc0, H0|].
    destruct (wf_elems buf a W) as (vals & EV & _). unfold ndim in E1.
    assert (ES : a_shape a = [n]).
    { destruct (a_shape a) as [|s [|]]; try discriminate. destruct axis; [|simpl in HA; lia]. cbn [nth_error] in Hn. congruence. }
    assert (A0 : axis = 0) by (rewrite ES in HA; simpl in HA; lia).
    assert (SZ : size a = n) by (unfold size; rewrite ES; cbn; lia).
    pose proof (read_contig buf a vals W Hc EV) as RC. rewrite SZ in RC. rewrite RC. cbn [bind]. f_equal.
    assert (LV : length vals = n).
    { pose proof (f_equal (@length _) EV) as EL. unfold elems in EL. rewrite !map_length, all_idx_length in EL. unfold size in SZ; lia. }
    assert (GV : forall k, k < n -> nth_error vals k = Some (value_at [k])).
    { intros k Hk. apply (f_equal (fun l => nth_error l k)) in EV. unfold elems in EV. rewrite ES in EV.
      rewrite !nth_error_map', nth_error_all_idx in EV by (cbn; lia). cbn [unrank prod option_map] in EV. rewrite Nat.div_1_r in EV.
      unfold value_at. destruct (nth_error vals k) as [v|] eqn:EK; [|apply nth_error_None in EK; lia]. cbn in EV. injection EV as ->. reflexivity. }
    assert (S1 : sh' = [n - 1]) by (unfold sh'; rewrite ES, A0; reflexivity). rewrite S1.
    apply nth_error_ext. intros k. rewrite nth_error_map'. destruct (Nat.lt_ge_cases k (n - 1)) as [L|L].
    + rewrite (diff_list_nth fast vals k (value_at [k]) (value_at [S k])) by (apply GV; lia).
      rewrite nth_error_all_idx by (cbn; lia). cbn [unrank prod option_map]. rewrite Nat.div_1_r. f_equal. unfold next_along. rewrite A0. cbn [upd nth]. rewrite Nat.add_1_r. reflexivity.
    + rewrite (proj2 (nth_error_None (diff_list fast vals) k)) by (rewrite diff_list_length; lia).
      rewrite (proj2 (nth_error_None (all_idx [n - 1]) k)) by (rewrite all_idx_length; cbn; lia). reflexivity.
  - exists slow. split; [right; reflexivity|]. split; [intros A B; rewrite A, B in E1; discriminate|]. split; [auto|].
    destruct (Nat.eqb_spec (prod sh') 0) as [H0|H0]; [apply Hc0, H0|].
    rewrite (at_ok _ _ _ Hs). cbn [bind].
    replace (repeat 0 (ndim a)) with (repeat 0 (length sh')) by (unfold sh', ndim; rewrite upd_length; reflexivity).
    rewrite odometer_all. apply mapM_total. intros idx Hi. apply in_all_idx in Hi. destruct (next_inb idx Hi) as (I1 & I2 & Hj & _).
    pose proof (value_at_ok _ I1) as G1. pose proof (value_at_ok _ I2) as G2.
    assert (HO : (byte_offset_for a idx + st)%Z = byte_offset_for a (next_along idx)).
    { unfold byte_offset_for, next_along. rewrite (dot_upd_idx idx (a_strides a) axis (nth axis idx 0) st (nth axis idx 0 + 1)) by assumption. lia. }
    rewrite HO. unfold read. unfold get in G1, G2. rewrite G1, G2. reflexivity.
Qed.
End Diff.

(* ---- arrays of numbers ------------------------------------------------------ *)
Lemma fresh_good k sh vals : numeric k = true -> length vals = prod sh -> (Z.of_nat (prod sh) * 16 < 2 ^ 63)%Z -> Forall (element k) vals ->
  good (mkN k vals (fresh sh (itemsize k))).
Proof.
  intros N L B F. split; [exact N|]. split; [|split; [exact F|exact B]]. cbn [n_buf n_arr].
  assert (itemsize k <= 16)%Z by (destruct k; try discriminate N; cbn; lia). pose proof (item_pos k N). apply fresh_wf; [assumption| |exact L]. rewrite L. nia.
Qed.
Lemma fresh_item k sh (h : list nat -> scalar) idx : numeric k = true -> inb idx sh -> item_at (mkN k (map h (all_idx sh)) (fresh sh (itemsize k))) idx = Some (h idx).
Proof.
  intros N I. unfold item_at. cbn [n_buf n_arr]. rewrite fresh_get by (apply item_pos, N). rewrite nth_error_map', nth_error_all_idx by (apply rank_lt, I).
  cbn [option_map]. rewrite unrank_rank by exact I. reflexivity.
Qed.
Lemma prod_upd_le sh axis n m : nth_error sh axis = Some n -> m <= n -> prod (upd sh axis m) <= prod sh.
Proof.
  revert axis; induction sh as [|s sh IH]; intros [|axis] H L; try discriminate H; cbn [upd prod].
  - injection H as ->. apply Nat.mul_le_mono_r, L.
  - apply Nat.mul_le_mono_l, IH; assumption.
Qed.
Lemma sub_slow_element k w v : real k = true -> element k w -> element k v -> element k (sub_slow k w v).
Proof.
  intros R EW EV. unfold sub_slow. change (SFsub 53 1024 (as_f64 w) (as_f64 v)) with (mixed_bin ASub (as_f64 w) (as_f64 v)).
  destruct (mixed_ok k k k ASub w v R R R eq_refl EW EV) as (r & ER & E). rewrite (mixed_elem_is k k k ASub w v R R EW EV) in ER. injection ER as <-. exact E.
Qed.
(* the dtypes of the typed loop *)
Definition typed (k : kind) : bool := match k with Float16 | Bool | Int8 => false | _ => true end.
Lemma sub_fast_is k w v : real k = true -> element k w -> element k v ->
  if typed k then same_elem k ASub w v = Ok (sub_fast k w v) else sub_fast k w v = sub_slow k w v.
Proof.
  intros R EW EV. destruct k; try discriminate R; cbn [typed]; try reflexivity; destruct w; try contradiction; destruct v; try contradiction; reflexivity.
Qed.
Lemma sub_fast_element k w v : real k = true -> element k w -> element k v -> element k (sub_fast k w v).
Proof.
  intros R EW EV. pose proof (sub_fast_is k w v R EW EV) as H. destruct (typed k).
  - destruct (same_ok k ASub w v R eq_refl EW EV) as (r & ER & E). rewrite H in ER. injection ER as <-. exact E.
  - rewrite H. apply sub_slow_element; assumption.
Qed.
Lemma sub_slow_exact k w v a b : real k = true -> element k w -> element k v -> real_value w = Fin a -> real_value v = Fin b ->
  f64_holds a -> f64_holds b -> f64_holds (a - b) -> holds k (a - b, 0)%Z -> real_value (sub_slow k w v) = Fin (a - b).
Proof.
  intros R EW EV VA VB FA FB FC HC. apply (mixed_exact k k k ASub w v _ a b (a - b)); try assumption; try reflexivity.
  apply (mixed_elem_is k k k ASub w v R R EW EV).
Qed.
Lemma narrow_holds k z : real k = true -> wide_int k = false -> holds k (z, 0)%Z -> f64_holds z.
Proof.
  intros R W H. destruct k; try discriminate R; try discriminate W; cbn [holds] in H; destruct H as [H _].
  all: try (revert H; apply int_float; lia).
  all: try (revert H; apply float_incl; lia).
  all: exact H.
Qed.
Lemma sub_fast_exact k w v a b : real k = true -> element k w -> element k v -> real_value w = Fin a -> real_value v = Fin b ->
  holds k (a - b, 0)%Z -> real_value (sub_fast k w v) = Fin (a - b).
Proof.
  intros R EW EV VA VB HC. pose proof (sub_fast_is k w v R EW EV) as H. destruct (typed k) eqn:T.
  - apply (same_exact k ASub w v _ a b (a - b)); try assumption; reflexivity.
  - rewrite H. assert (wide_int k = false) as W by (destruct k; try discriminate T; reflexivity).
    pose proof (narrow_fits k w R W EW) as F1. pose proof (narrow_fits k v R W EV) as F2. unfold fits in F1, F2. rewrite VA in F1. rewrite VB in F2.
    apply sub_slow_exact; try assumption. apply (narrow_holds k); assumption.
Qed.

Definition is_line (x : narr) : Prop := length (shape_of x) = 1 /\ a_c (n_arr x) = true.
Definition sub_for (x : narr) : scalar -> scalar -> scalar :=
  if (length (shape_of x) =? 1) && a_c (n_arr x) then sub_fast (n_kind x) else sub_slow (n_kind x).
Lemma sub_for_element x w v : real (n_kind x) = true -> element (n_kind x) w -> element (n_kind x) v -> element (n_kind x) (sub_for x w v).
Proof. intros. unfold sub_for. destruct (_ && _); [apply sub_fast_element|apply sub_slow_element]; assumption. Qed.

Lemma diff_once_spec x axis n : good x -> real (n_kind x) = true -> nth_error (shape_of x) axis = Some n -> 1 < n ->
  exists z, diff_once x axis n = Ok z /\ good z /\ n_kind z = n_kind x /\ shape_of z = upd (shape_of x) axis (n - 1) /\ a_c (n_arr z) = true /\
    forall idx, inb idx (shape_of z) -> exists v w, item_at x idx = Some v /\ item_at x (next_along axis idx) = Some w /\ element (n_kind x) v /\ element (n_kind x) w /\
      item_at z idx = Some (sub_for x w v).
Proof.
  intros G R HN H1. pose proof G as (N & W & F & B). set (k := n_kind x) in *. unfold shape_of in HN.
  destruct (diff_data_spec (sub_fast k) (sub_slow k) (n_buf x) (n_arr x) axis n W HN H1 (SInt 0)) as (D & _ & D1 & D2 & E).
  assert (D = sub_for x) as ->.
  { unfold sub_for, shape_of. destruct (Nat.eqb_spec (length (a_shape (n_arr x))) 1) as [L|L]; cbn [andb]; [|apply D2; left; exact L].
    destruct (a_c (n_arr x)) eqn:C; [apply D1; [exact L|reflexivity]|apply D2; right; reflexivity]. }
  clear D1 D2. unfold diff_once. fold k. rewrite E. cbn [bind]. eexists. split; [reflexivity|].
  assert (HV : forall idx, inb idx (shape_of x) -> item_at x idx = Some (value_at (n_buf x) (n_arr x) (SInt 0) idx)) by (intros idx I; apply value_at_ok; assumption).
  assert (HE : forall idx, inb idx (shape_of x) -> element k (value_at (n_buf x) (n_arr x) (SInt 0) idx)) by (intros idx I; apply (good_element x idx); [exact G|apply HV, I]).
  assert (HI : forall idx, inb idx (upd (a_shape (n_arr x)) axis (n - 1)) -> inb idx (shape_of x) /\ inb (next_along axis idx) (shape_of x)).
  { intros idx I. destruct (next_inb (n_arr x) axis n HN H1 idx I) as (A1 & A2 & _). split; assumption. }
  split.
  { apply fresh_good; [exact N|rewrite map_length, all_idx_length; reflexivity| |].
    - pose proof (prod_upd_le (a_shape (n_arr x)) axis n (n - 1) HN ltac:(lia)). lia.
    - apply Forall_forall. intros c Hc. apply in_map_iff in Hc as (idx & <- & Hi). apply in_all_idx in Hi. destruct (HI idx Hi). apply sub_for_element; [exact R|apply HE; assumption|apply HE; assumption]. }
  split; [reflexivity|]. split; [reflexivity|]. split; [reflexivity|]. intros idx I. change (shape_of _) with (upd (a_shape (n_arr x)) axis (n - 1)) in I. destruct (HI idx I) as [I1 I2].
  exists (value_at (n_buf x) (n_arr x) (SInt 0) idx), (value_at (n_buf x) (n_arr x) (SInt 0) (next_along axis idx)).
  split; [apply HV, I1|]. split; [apply HV, I2|]. split; [apply HE, I1|]. split; [apply HE, I2|].
  exact (fresh_item k _ (fun idx => sub_for x (value_at (n_buf x) (n_arr x) (SInt 0) (next_along axis idx)) (value_at (n_buf x) (n_arr x) (SInt 0) idx)) idx N I).
Qed.

(* every element of x is a finite number, f idx *)
Definition numbers (x : narr) (f : list nat -> Z) : Prop :=
  forall idx, inb idx (shape_of x) -> exists v, item_at x idx = Some v /\ real_value v = Fin (f idx).
Lemma delta_ext n f g : (forall i, f i = g i) -> forall i, delta n f i = delta n g i.
Proof. revert f g; induction n as [|n IH]; intros f g H i; cbn [delta]; [apply H|]. apply IH. intros j. rewrite !H. reflexivity. Qed.
Lemma nth_upd_axis (idx : list nat) axis i : axis < length idx -> nth axis (upd idx axis i) 0 = i.
Proof. intros L. apply nth_error_nth, nth_error_upd_eq, L. Qed.
Lemma difference_O f axis idx : axis < length idx -> difference 0 f axis idx = f idx.
Proof. intros L. unfold difference, lane. cbn [delta]. f_equal. apply upd_same, nth_error_nth', L. Qed.
Lemma difference_S n f axis idx : axis < length idx -> difference (S n) f axis idx = difference n (difference 1 f axis) axis idx.
Proof.
  intros L. unfold difference at 1 2. cbn [delta]. apply delta_ext. intros i. unfold lane at 3. unfold difference. cbn [delta]. rewrite nth_upd_axis by exact L.
  unfold lane. rewrite !upd_upd. reflexivity.
Qed.
Lemma difference_1 f axis idx : axis < length idx -> difference 1 f axis idx = (f (next_along axis idx) - f idx)%Z.
Proof.
  intros L. unfold difference, lane, next_along. cbn [delta]. rewrite Nat.add_1_r. f_equal. f_equal. apply upd_same, nth_error_nth', L.
Qed.

(* numbers this array's dtype has, and a double too unless the typed loop is used *)
Definition held (x : narr) (z : Z) : Prop := holds (n_kind x) (z, 0)%Z /\ (wide_int (n_kind x) = true -> is_line x \/ f64_holds z).
Lemma holds_of k v z : real k = true -> element k v -> real_value v = Fin z -> wide_int k = false -> f64_holds z.
Proof. intros R E V W. pose proof (narrow_fits k v R W E) as F. unfold fits in F. rewrite V in F. exact F. Qed.
Lemma sub_for_exact x w v a b : real (n_kind x) = true -> element (n_kind x) w -> element (n_kind x) v -> real_value w = Fin a -> real_value v = Fin b ->
  held x a -> held x b -> held x (a - b)%Z -> real_value (sub_for x w v) = Fin (a - b).
Proof.
  intros R EW EV VA VB [_ HA] [_ HB] [HC HC']. unfold sub_for. unfold is_line in *.
  destruct (Nat.eqb_spec (length (shape_of x)) 1) as [L|L]; [destruct (a_c (n_arr x)) eqn:C|]; cbn [andb]; [apply sub_fast_exact; assumption| |];
    (destruct (wide_int (n_kind x)) eqn:W;
     [apply sub_slow_exact; try assumption; [destruct (HA eq_refl) as [[? Q]|Q]|destruct (HB eq_refl) as [[? Q]|Q]|destruct (HC' eq_refl) as [[? Q]|Q]]; try exact Q; congruence
     |apply sub_slow_exact; try assumption; [apply (holds_of _ w _ R EW VA W)|apply (holds_of _ v _ R EV VB W)|apply (narrow_holds _ _ R W HC)]]).
Qed.
Lemma nth_upd_shape (sh : list nat) axis (m : nat) : axis < length sh -> nth_error (upd sh axis m) axis = Some m.
Proof. apply nth_error_upd_eq. Qed.
Lemma inb_grow idx sh axis n m m' : nth_error sh axis = Some n -> m <= m' -> inb idx (upd sh axis m) -> inb idx (upd sh axis m').
Proof.
  intros H L I. assert (HA : axis < length sh) by (apply nth_error_Some; congruence).
  apply inb_iff_nth. pose proof (inb_length _ _ I) as LI. rewrite upd_length in LI. split; [rewrite upd_length; exact LI|]. intros k i s H1 H2.
  destruct (Nat.eq_dec k axis) as [->|K].
  - rewrite nth_error_upd_eq in H2 by exact HA. injection H2 as <-. pose proof (inb_nth idx _ axis i m I H1 (nth_error_upd_eq _ _ _ HA)). lia.
  - rewrite nth_error_upd_neq in H2 by exact K. apply (inb_nth idx _ k i s I H1). rewrite nth_error_upd_neq by exact K. exact H2.
Qed.

Lemma diff_exact n : forall x axis len f, good x -> real (n_kind x) = true -> nth_error (shape_of x) axis = Some len -> n < len -> numbers x f ->
  (forall j idx, j <= n -> inb idx (upd (shape_of x) axis (len - j)) -> held x (difference j f axis idx)) ->
  exists z, diff n x axis = Ok z /\ good z /\ n_kind z = n_kind x /\ shape_of z = upd (shape_of x) axis (len - n) /\ numbers z (difference n f axis).
Proof.
  assert (HAX : forall sh axis (len : nat) idx m, nth_error sh axis = Some len -> inb idx (upd sh axis m) -> axis < length idx).
  { intros sh axis len idx m HN I. rewrite (inb_length _ _ I), upd_length. apply nth_error_Some. congruence. }
  induction n as [|n IH]; intros x axis len f G R HN HL HF HH.
  - cbn [diff]. change (a_shape (n_arr x)) with (shape_of x). rewrite HN. pose proof G as (N & W & F & B).
    assert (E : exists vals, astype x (n_kind x) = Ok (mkN (n_kind x) vals (fresh (shape_of x) (itemsize (n_kind x)))) /\ elems (n_buf x) (n_arr x) = map Some vals /\ length vals = size (n_arr x)).
    { unfold astype. assert (kind_eqb (n_kind x) (n_kind x) = true) as -> by (clear - N; destruct (n_kind x); try discriminate N; reflexivity).
      match goal with |- context[copy_buf _ _ ?t] => destruct (copy_buf_spec (n_buf x) (n_arr x) t W) as (vals & E & EE & LV) end.
      rewrite E. exists vals. split; [reflexivity|split; assumption]. }
    destruct E as (vals & E & EE & LV). destruct (astype_spec x (n_kind x) G N) as (y & EY & KY & SY & _ & _ & HY). rewrite E in EY. injection EY as <-.
    eexists. split; [exact E|]. split.
    { apply fresh_good; [exact N|exact LV|exact B|]. apply Forall_forall. intros c Hc.
      assert (In (Some c) (elems (n_buf x) (n_arr x))) as Q by (rewrite EE; apply in_map, Hc). unfold elems in Q. apply in_map_iff in Q as (idx & Q & _). apply (good_element x idx c G Q). }
    split; [reflexivity|]. assert (upd (shape_of x) axis (len - 0) = shape_of x) as ES by (rewrite Nat.sub_0_r; apply upd_same, HN). rewrite ES. split; [reflexivity|].
    intros idx I. change (shape_of _) with (shape_of x) in I. destruct (HF idx I) as (v & EV & V). exists (conv (n_kind x) x v). rewrite HY, EV by exact I. split; [reflexivity|].
    rewrite difference_O by (apply (HAX (shape_of x) axis len idx len HN); rewrite (upd_same _ _ _ HN); exact I).
    unfold conv. destruct (kind_eqb (n_kind x) (n_kind x)) eqn:Q; [exact V|]. exfalso. clear - N Q. destruct (n_kind x); try discriminate N; discriminate Q.
  - destruct (diff_once_spec x axis len G R HN ltac:(lia)) as (x1 & E1 & G1 & K1 & S1 & C1 & HX1).
    assert (HF1 : numbers x1 (difference 1 f axis)).
    { intros idx I. destruct (HX1 idx I) as (v & w & EV & EW & LV & LW & EZ). exists (sub_for x w v). split; [exact EZ|]. rewrite S1 in I.
      pose proof (HAX _ _ _ _ _ HN I) as LA. destruct (next_inb (n_arr x) axis len HN ltac:(lia) idx I) as (I1 & I2 & _). fold (shape_of x) in I1, I2.
      destruct (HF idx I1) as (v' & EV' & VV). destruct (HF _ I2) as (w' & EW' & VW). rewrite EV in EV'. injection EV' as <-. rewrite EW in EW'. injection EW' as <-.
      rewrite difference_1 by exact LA.
      assert (HH0 : forall i, inb i (shape_of x) -> held x (f i)).
      { intros i Hi. assert (Hi' : inb i (upd (shape_of x) axis (len - 0))) by (rewrite Nat.sub_0_r, (upd_same _ _ _ HN); exact Hi).
        rewrite <- (difference_O f axis i) by (apply (HAX _ _ _ _ _ HN Hi')). apply HH; [lia|exact Hi']. }
      apply sub_for_exact; try assumption; [apply HH0, I2|apply HH0, I1|]. rewrite <- difference_1 by exact LA. apply HH; [lia|exact I]. }
    cbn [diff]. change (a_shape (n_arr x)) with (shape_of x). rewrite HN. destruct (Nat.leb_spec len (S n)) as [Q|_]; [lia|]. rewrite E1. cbn [bind].
    assert (HA : axis < length (shape_of x)) by (apply nth_error_Some; congruence).
    assert (HX : forall j, upd (shape_of x1) axis (len - 1 - j) = upd (shape_of x) axis (len - S j)) by (intros j; rewrite S1, upd_upd; f_equal; lia).
    assert (HS : forall z, shape_of z = upd (shape_of x) axis (len - S n) -> numbers z (difference n (difference 1 f axis) axis) -> numbers z (difference (S n) f axis)).
    { intros z SZ NZ idx I. rewrite difference_S by (rewrite SZ in I; apply (HAX _ _ _ _ _ HN I)). apply NZ, I. }
    destruct n as [|n].
    + exists x1. split; [reflexivity|]. split; [exact G1|]. split; [exact K1|]. split; [exact S1|exact HF1].
    + destruct (IH x1 axis (len - 1) (difference 1 f axis) G1 ltac:(rewrite K1; exact R) ltac:(rewrite S1; apply nth_error_upd_eq, HA) ltac:(lia) HF1) as (z & EZ & GZ & KZ & SZ & NZ).
      * intros j idx Hj I. rewrite HX in I. rewrite <- difference_S by (apply (HAX _ _ _ _ _ HN I)). destruct (HH (S j) idx ltac:(lia) I) as [A B].
        split; [rewrite K1; exact A|]. rewrite K1. intros W. destruct (B W) as [[L _]|Q]; [left|right; exact Q]. split; [rewrite S1, upd_length; exact L|exact C1].
      * exists z. split; [exact EZ|]. split; [exact GZ|]. split; [rewrite KZ; exact K1|]. rewrite HX in SZ. split; [exact SZ|]. apply HS; assumption.
Qed.

Lemma diff_total n : forall x axis len, good x -> real (n_kind x) = true -> nth_error (shape_of x) axis = Some len ->
  exists z, diff n x axis = Ok z /\ good z /\ n_kind z = n_kind x /\ shape_of z = upd (shape_of x) axis (len - n).
Proof.
  induction n as [|n IH]; intros x axis len G R HN.
  - cbn [diff]. change (a_shape (n_arr x)) with (shape_of x). rewrite HN. pose proof G as (N & W & F & B).
    unfold astype. assert (kind_eqb (n_kind x) (n_kind x) = true) as -> by (clear - N; destruct (n_kind x); try discriminate N; reflexivity).
    match goal with |- context[copy_buf _ _ ?t] => destruct (copy_buf_spec (n_buf x) (n_arr x) t W) as (vals & E & EE & LV) end.
    rewrite E. cbn [bind]. eexists. split; [reflexivity|]. split; [|split; [reflexivity|rewrite Nat.sub_0_r; symmetry; apply upd_same, HN]].
    apply fresh_good; [exact N|exact LV|exact B|]. apply Forall_forall. intros c Hc.
    assert (In (Some c) (elems (n_buf x) (n_arr x))) as Q by (rewrite EE; apply in_map, Hc). unfold elems in Q. apply in_map_iff in Q as (idx & Q & _). apply (good_element x idx c G Q).
  - cbn [diff]. change (a_shape (n_arr x)) with (shape_of x). rewrite HN. assert (HA : axis < length (shape_of x)) by (apply nth_error_Some; congruence).
    destruct (Nat.leb_spec len (S n)) as [Q|Q].
    + assert (prod (upd (shape_of x) axis 0) = 0) as P0 by (apply prod_zero_iff; apply (nth_error_In _ axis), nth_error_upd_eq, HA).
      eexists. split; [reflexivity|]. split; [apply fresh_good; [apply G|rewrite P0; reflexivity|rewrite P0; lia|constructor]|]. split; [reflexivity|].
      replace (len - S n) with 0 by lia. reflexivity.
    + destruct (diff_once_spec x axis len G R HN ltac:(lia)) as (x1 & E1 & G1 & K1 & S1 & _). rewrite E1. cbn [bind]. destruct n as [|n].
      * exists x1. auto.
      * destruct (IH x1 axis (len - 1) G1 ltac:(rewrite K1; exact R) ltac:(rewrite S1; apply nth_error_upd_eq, HA)) as (z & EZ & GZ & KZ & SZ).
        exists z. split; [exact EZ|]. split; [exact GZ|]. split; [rewrite KZ; exact K1|]. rewrite SZ, S1, upd_upd. f_equal. lia.
Qed.
Lemma diff_add a : forall b x axis len, good x -> real (n_kind x) = true -> nth_error (shape_of x) axis = Some len -> S a + S b < len ->
  diff (S a + S b) x axis = bind (diff (S a) x axis) (fun y => diff (S b) y axis).
Proof.
  induction a as [|a IH]; intros b x axis len G R HN HL; destruct (diff_once_spec x axis len G R HN ltac:(lia)) as (x1 & E1 & G1 & K1 & S1 & _);
    assert (HA : axis < length (shape_of x)) by (apply nth_error_Some; congruence).
  - cbn [Nat.add]. change (diff (S (S b)) x axis) with
      (match nth_error (shape_of x) axis with None => Panic | Some axis_len => if axis_len <=? S (S b) then Ok (mkN (n_kind x) [] (fresh (upd (shape_of x) axis 0) (itemsize (n_kind x)))) else bind (diff_once x axis axis_len) (fun r => diff (S b) r axis) end).
    rewrite HN. destruct (Nat.leb_spec len (S (S b))) as [Q|_]; [lia|].
    change (diff 1 x axis) with
      (match nth_error (shape_of x) axis with None => Panic | Some axis_len => if axis_len <=? 1 then Ok (mkN (n_kind x) [] (fresh (upd (shape_of x) axis 0) (itemsize (n_kind x)))) else bind (diff_once x axis axis_len) (fun r => Ok r) end).
    rewrite HN. destruct (Nat.leb_spec len 1) as [Q|_]; [lia|]. rewrite E1. reflexivity.
  - assert (HS : forall m, S (S m) < len -> diff (S (S m)) x axis = diff (S m) x1 axis).
    { intros m Hm. change (diff (S (S m)) x axis) with
      (match nth_error (shape_of x) axis with None => Panic | Some axis_len => if axis_len <=? S (S m) then Ok (mkN (n_kind x) [] (fresh (upd (shape_of x) axis 0) (itemsize (n_kind x)))) else bind (diff_once x axis axis_len) (fun r => diff (S m) r axis) end).
      rewrite HN. destruct (Nat.leb_spec len (S (S m))) as [Q|_]; [lia|]. rewrite E1. reflexivity. }
    replace (S (S a) + S b) with (S (S (a + S b))) by lia. rewrite HS by lia. rewrite HS by lia.
    replace (S (a + S b)) with (S a + S b) by lia. apply (IH b x1 axis (len - 1) G1); [rewrite K1; exact R|rewrite S1; apply nth_error_upd_eq, HA|lia].
Qed.
