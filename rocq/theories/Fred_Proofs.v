(* Reductions: what holds of every order of combination the loops use. *)
From Coq Require Import SpecFloat Permutation.
From Verif Require Import Base Lists Int_Model Int_Proofs F64_Model Arr_Spec Arr_Model Arr_Wf Arr_Proofs Wf_Check Bcast_Model Bcast_Proofs Copy_Model Copy_Proofs Idx_Model Idx_Assign Elem_Model Elem_Proofs Rng_Model Date_Model New_Model Promo_Spec Promo_Model Promo_Proofs Promo_Props SF_Proofs SF_Arith SF_Cmp Cast_Spec Cast_Model Cast_SF Cast_Proofs Cast_Laws Cast_Props Close_Proofs Bitw_Spec Bitw_Model Bitw_Proofs Rnd_Spec Rnd_Model Rnd_Proofs Rnd_Round Rnd_Props Ari_Spec SF_Round Ari_Model Ari_Proofs Ari_Ord Ari_Next Ari_Props Red_Spec Red_Model Red_Proofs Cpx_Spec Cpx_Model Cpx_Proofs CpxA_Spec CpxA_Proofs Fred_Spec Fred_Model.
Local Open Scope Z_scope.

(* ---- reading through a conversion of the buffer --------------------------------- *)
Lemma load_map {V W} (g : V -> W) buf item ad : load (map g buf) item ad = option_map g (load buf item ad).
Proof. unfold load. destruct (ad <? 0); [reflexivity|]. destruct (ad mod item =? 0); [|reflexivity]. apply nth_error_map. Qed.
Lemma get_map {V W} (g : V -> W) buf a idx : get (map g buf) a idx = option_map g (get buf a idx).
Proof. apply load_map. Qed.
Lemma wf_map {V W} (g : V -> W) buf a : wf buf a -> wf (map g buf) a.
Proof.
  intros (H1 & H2 & H3 & H4 & H5 & H6 & H7). unfold wf. rewrite map_length. repeat (split; [assumption|]).
  split; [|split; assumption]. intros idx HI. destruct (H5 idx HI) as [v Hv]. exists (g v). rewrite get_map, Hv. reflexivity.
Qed.
Lemma elems_map {V W} (g : V -> W) buf a vals : elems buf a = map Some vals -> elems (map g buf) a = map Some (map g vals).
Proof.
  intros H. unfold elems in *. transitivity (map (option_map g) (map Some vals)); [|rewrite !map_map; reflexivity]. rewrite <- H, map_map.
  apply map_ext. intros idx. apply get_map.
Qed.
Lemma lane_map {V W} (g : V -> W) buf a axis o lv : lane buf a axis o = map Some lv -> lane (map g buf) a axis o = map Some (map g lv).
Proof.
  intros H. unfold lane in *. transitivity (map (option_map g) (map Some lv)); [|rewrite !map_map; reflexivity]. rewrite <- H, map_map.
  apply map_ext. intros idx. apply get_map.
Qed.

(* ---- every order of combination -------------------------------------------------- *)
Section Orders.
Context {T : Type}.
Variables (init : T) (comb : T -> T -> T) (D : T -> Prop) (R : list T -> T -> Prop).
Hypothesis R0 : R [] init.
Hypothesis R1 : forall l a v, R l a -> D v -> R (l ++ [v]) (comb a v).
Hypothesis R2 : forall l l' a b, R l a -> R l' b -> R (l ++ l') (comb a b).
Hypothesis RP : forall l l' a, Permutation l l' -> R l a -> R l' a.

Lemma fold_order l data a : R l a -> Forall D data -> R (l ++ data) (fold_left comb data a).
Proof.
  revert l a; induction data as [|v data IH]; intros l a H HD; [rewrite app_nil_r; exact H|].
  inversion HD; subst. cbn [fold_left]. replace (l ++ v :: data) with ((l ++ [v]) ++ data) by (rewrite <- app_assoc; reflexivity).
  apply IH; [apply R1; assumption|assumption].
Qed.
Lemma fold_init_order data : Forall D data -> R data (fold_left comb data init).
Proof. intros HD. exact (fold_order [] data init R0 HD). Qed.

Lemma zip_lanes ls r vs : Forall2 R ls r -> Forall D vs -> length vs = length r ->
  exists ls', Forall2 R ls' (Base.zip_with comb r vs) /\ length ls' = length ls /\ Permutation (concat ls') (concat ls ++ vs).
Proof.
  intros HF. revert vs. induction HF as [|l a ls r HA HF IH]; intros vs HD HL.
  - destruct vs; [|discriminate HL]. exists []. repeat split; constructor.
  - destruct vs as [|v vs]; [discriminate HL|]. inversion HD; subst. injection HL as HL. destruct (IH vs H2 HL) as (ls' & A & B & C).
    exists ((l ++ [v]) :: ls'). split; [constructor; [apply R1; assumption|exact A]|]. split; [cbn [length]; rewrite B; reflexivity|].
    cbn [concat]. rewrite <- !app_assoc. apply Permutation_app_head. cbn [app]. rewrite C.
    apply Permutation_middle.
Qed.
Lemma zip_length {A} (f : A -> A -> A) r vs : length r = length vs -> length (Base.zip_with f r vs) = length r.
Proof. revert vs; induction r as [|a r IH]; intros [|v vs] H; try discriminate H; [reflexivity|]. cbn. f_equal. apply IH. injection H as H. exact H. Qed.
Lemma firstn_plus {A} (l : list A) i n : firstn (i + n) l = firstn i l ++ firstn n (skipn i l).
Proof. revert l; induction i as [|i IH]; intros [|x l]; cbn; [reflexivity|reflexivity|rewrite firstn_nil; reflexivity|]. rewrite IH. reflexivity. Qed.
Lemma lanes_order data fuel : Forall D data -> forall i end_ ls r, (end_ <= length data)%nat -> (exists q, i = 8 * q)%nat -> (exists q, end_ = 8 * q)%nat ->
  length r = 8%nat -> Forall2 R ls r -> Permutation (concat ls) (firstn i data) ->
  exists j ls' r', lanes_loop comb fuel data i end_ r = (j, r') /\ length r' = 8%nat /\ Forall2 R ls' r' /\ Permutation (concat ls') (firstn j data).
Proof.
  intros HD. induction fuel as [|f IH]; intros i end_ ls r HE HI HQ HR HF HP; [exists i, ls, r; repeat split; assumption|].
  cbn [lanes_loop]. destruct (Nat.ltb_spec i end_) as [HL|HL]; [|exists i, ls, r; repeat split; assumption].
  destruct HI as [qi Ei]. destruct HQ as [qe Ee].
  assert (LV : length (firstn 8 (skipn i data)) = 8%nat) by (rewrite firstn_length, skipn_length; lia).
  assert (DV : Forall D (firstn 8 (skipn i data))).
  { apply Forall_forall. intros v Hv. rewrite Forall_forall in HD. apply HD. rewrite <- (firstn_skipn i data). apply in_or_app. right.
    rewrite <- (firstn_skipn 8 (skipn i data)). apply in_or_app. left. exact Hv. }
  destruct (zip_lanes ls r _ HF DV ltac:(lia)) as (ls' & A & B & C).
  apply (IH (i + 8)%nat end_ ls'); try assumption.
  - exists (qi + 1)%nat. lia.
  - exists qe. exact Ee.
  - rewrite zip_length by lia. exact HR.
  - rewrite C, HP, firstn_plus. reflexivity.
Qed.
Theorem reduce8_order data : Forall D data -> R data (reduce8 init comb data).
Proof.
  intros HD. unfold reduce8. destruct (Nat.eqb_spec (length data) 0) as [H0|H0]; [destruct data; [exact R0|discriminate H0]|].
  destruct (Nat.ltb_spec (length data) 8) as [H8|H8]; [apply fold_init_order; exact HD|].
  assert (F8 : Forall D (firstn 8 data)).
  { apply Forall_forall. intros v Hv. rewrite Forall_forall in HD. apply HD. rewrite <- (firstn_skipn 8 data). apply in_or_app. left. exact Hv. }
  assert (L8 : length (firstn 8 data) = 8%nat) by (rewrite firstn_length; lia).
  assert (HM : Forall2 R (map (fun v => [v]) (firstn 8 data)) (map (comb init) (firstn 8 data))).
  { clear L8. induction F8 as [|v l Hv Hl IH]; [constructor|]. cbn [map]. constructor; [exact (R1 [] init v R0 Hv)|exact IH]. }
  assert (HC : concat (map (fun v : T => [v]) (firstn 8 data)) = firstn 8 data).
  { generalize (firstn 8 data). intros l. induction l as [|v l IHl]; [reflexivity|]. cbn [map concat app]. rewrite IHl. reflexivity. }
  destruct (lanes_order data (length data) HD 8 (length data - length data mod 8)%nat (map (fun v => [v]) (firstn 8 data)) (map (comb init) (firstn 8 data))) as (j & ls & r & E & LR & HF & HP).
  - lia.
  - exists 1%nat. reflexivity.
  - exists (length data / 8)%nat. pose proof (Nat.div_mod (length data) 8). lia.
  - rewrite map_length. exact L8.
  - exact HM.
  - rewrite HC. reflexivity.
  - rewrite E. assert (HT : R (concat ls) (tree8 init comb r)).
    { clear E HP. destruct r as [|r0 [|r1 [|r2 [|r3 [|r4 [|r5 [|r6 [|r7 [|]]]]]]]]]; try discriminate LR.
      repeat match goal with H : Forall2 R _ (_ :: _) |- _ => inversion H; clear H; subst | H : Forall2 R _ [] |- _ => inversion H; clear H; subst end.
      cbn [tree8 concat]. rewrite app_nil_r.
      match goal with |- R (?a ++ ?b ++ ?c ++ ?d ++ ?e ++ ?f ++ ?g ++ ?h) _ =>
        replace (a ++ b ++ c ++ d ++ e ++ f ++ g ++ h) with (((a ++ b) ++ (c ++ d)) ++ ((e ++ f) ++ (g ++ h))) by (rewrite <- !app_assoc; reflexivity) end.
      apply R2; apply R2; apply R2; assumption. }
    apply (RP (concat ls ++ skipn j data)); [rewrite HP, firstn_skipn; reflexivity|]. apply fold_order; [exact HT|].
    apply Forall_forall. intros v Hv. rewrite Forall_forall in HD. apply HD. rewrite <- (firstn_skipn j data). apply in_or_app. right. exact Hv.
Qed.
End Orders.

(* ---- along an axis ------------------------------------------------------------------ *)
(* every entry of z is Q of the elements of x it stands for *)
Definition per_lane (Q : list ext -> ext -> Prop) (x : narr) (axis : nat) (z : narr) : Prop :=
  n_kind z = n_kind x /\ shape_of z = reduced_shape axis (shape_of x) /\
  forall idx, inb idx (shape_of z) -> exists lv r,
    lane (n_buf x) (n_arr x) axis (outer_of (shape_of x) idx) = map Some lv /\ item_at z idx = Some r /\
    element (n_kind x) r /\ Q (map real_value lv) (real_value r).

Lemma lane_value {V} (buf : list V) a axis n idx : wf buf a -> nth_error (a_shape a) axis = Some n -> inb idx (reduced_shape axis (a_shape a)) ->
  exists lv, lane buf a axis (outer_of (a_shape a) idx) = map Some lv /\ forall v, In v lv -> In v buf.
Proof.
  intros W Hn HI. destruct (lanes_exist buf a axis n W Hn) as [L EL]. destruct (outer_of_inb axis (a_shape a) n idx Hn HI) as [HO _].
  assert (In (lane buf a axis (outer_of (a_shape a) idx)) (map (lane buf a axis) (all_idx (remove_at axis (a_shape a))))) as HIn.
  { apply in_map. apply in_all_idx. exact HO. }
  rewrite EL in HIn. apply in_map_iff in HIn as (lv & E & _). exists lv. split; [symmetry; exact E|].
  intros v Hv. assert (In (Some v) (lane buf a axis (outer_of (a_shape a) idx))) as HS by (rewrite <- E; apply in_map; exact Hv).
  unfold lane in HS. apply in_map_iff in HS as (j & EJ & _). unfold get in EJ. exact (load_in _ _ _ _ EJ).
Qed.

Definition float_kind (k : kind) : Prop := k = Float16 \/ k = Float32 \/ k = Float64.
Definition stable (k : kind) (Q : list ext -> ext -> Prop) (comb : spec_float -> spec_float -> spec_float) : Prop :=
  (forall l a v, valid_in k a -> valid_in k v -> Q l (float_value a) -> valid_in k (comb a v) /\ Q (l ++ [float_value v]) (float_value (comb a v))) /\
  (forall l l' a b, valid_in k a -> valid_in k b -> Q l (float_value a) -> Q l' (float_value b) -> valid_in k (comb a b) /\ Q (l ++ l') (float_value (comb a b))).
Definition unordered (Q : list ext -> ext -> Prop) : Prop := forall l l' r, Permutation l l' -> Q l r -> Q l' r.

Section Inv.
Variables (k : kind) (Q : list ext -> ext -> Prop) (init : spec_float) (comb : spec_float -> spec_float -> spec_float).
Hypothesis VI : valid_in k init.
Hypothesis QI : Q [] (float_value init).
Hypothesis QS : stable k Q comb.
Hypothesis QU : unordered Q.
Let R (l : list spec_float) (r : spec_float) : Prop := valid_in k r /\ Q (map float_value l) (float_value r).
Lemma inv_step l a v : R l a -> valid_in k v -> R (l ++ [v]) (comb a v).
Proof. intros [A B] V. unfold R. rewrite map_app. apply (proj1 QS); assumption. Qed.
Lemma inv_both l l' a b : R l a -> R l' b -> R (l ++ l') (comb a b).
Proof. intros [A B] [A' B']. unfold R. rewrite map_app. apply (proj2 QS); assumption. Qed.
Lemma inv_perm l l' a : Permutation l l' -> R l a -> R l' a.
Proof. intros HP [A B]. split; [exact A|]. eapply QU; [apply Permutation_map; exact HP|exact B]. Qed.
Lemma inv_reduce8 l : Forall (valid_in k) l -> valid_in k (reduce8 init comb l) /\ Q (map float_value l) (float_value (reduce8 init comb l)).
Proof. intros H. apply (reduce8_order init comb (valid_in k) R); [split; assumption|exact inv_step|exact inv_both|exact inv_perm|exact H]. Qed.
Lemma inv_fold l : Forall (valid_in k) l -> valid_in k (fold_left comb l init) /\ Q (map float_value l) (float_value (fold_left comb l init)).
Proof. intros H. apply (fold_init_order init comb (valid_in k) R); [split; assumption|exact inv_step|exact H]. Qed.
End Inv.

Lemma float_kind_real k : float_kind k -> real k = true /\ numeric k = true.
Proof. intros [-> |[-> | ->]]; split; reflexivity. Qed.
Lemma floats_flt k l : float_kind k -> Forall (element k) l -> Forall (valid_in k) (map flt l) /\ map float_value (map flt l) = map real_value l.
Proof.
  intros K HF. induction HF as [|v l Hv HF [IH1 IH2]]; [split; constructor|]. destruct (element_float k v K Hv) as (x & -> & V). cbn [map flt].
  split; [constructor; assumption|]. f_equal. exact IH2.
Qed.
Lemma vals_elements x vals : good x -> elems (n_buf x) (n_arr x) = map Some vals -> Forall (element (n_kind x)) vals.
Proof.
  intros (_ & _ & HE & _) E. apply Forall_forall. intros v Hv. rewrite Forall_forall in HE. apply HE.
  assert (In (Some v) (elems (n_buf x) (n_arr x))) as HS by (rewrite E; apply in_map; exact Hv).
  unfold elems in HS. apply in_map_iff in HS as (idx & EJ & _). exact (load_in _ _ _ _ EJ).
Qed.
(* through f64 and back *)
Lemma float_fits k x : float_kind k -> valid_in k x -> fits (SFlt x).
Proof. intros K V. apply (narrow_fits k); [apply float_kind_real; exact K|destruct K as [-> |[-> | ->]]; reflexivity|apply float_element; assumption]. Qed.
Lemma as_f64_float k x : float_kind k -> valid_in k x -> float_value (as_f64 (SFlt x)) = float_value x /\ valid_binary 53 1024 (as_f64 (SFlt x)) = true.
Proof. intros K V. apply (as_f64_value k (SFlt x)); [apply float_kind_real; exact K|apply float_element; assumption|exact (float_fits k x K V)]. Qed.
Lemma through_f64 k x : float_kind k -> valid_in k x -> float_value (as_f64 (write_f64 k (as_f64 (SFlt x)))) = float_value x.
Proof.
  intros K V. destruct (as_f64_float k x K V) as [A B]. pose proof (proj2 (float_kind_real k K)) as N.
  assert (HH : holds_value k (float_value (as_f64 (SFlt x)), Fin 0)).
  { rewrite A. pose proof (valid_holds (fst (format k)) (snd (format k)) x) as H. destruct K as [-> |[-> | ->]]; cbn [holds_value fst snd];
      (split; [|reflexivity]); apply H; try exact V; try (vm_compute; split; discriminate); vm_compute; reflexivity. }
  destruct (write_exact k _ N B HH) as [C E]. destruct (element_float k _ K E) as (y & EY & VY). rewrite EY in *.
  rewrite (proj1 (as_f64_float k y K VY)). cbn [value] in C. injection C as C. rewrite C. exact A.
Qed.

Lemma float_total_inv (Q : list ext -> ext -> Prop) op x vals : float_kind (n_kind x) -> good x -> elems (n_buf x) (n_arr x) = map Some vals ->
  valid_in (n_kind x) (fred_init (n_kind x) op) -> Q [] (float_value (fred_init (n_kind x) op)) -> unordered Q ->
  stable (n_kind x) Q (fred_comb (n_kind x) op) -> stable (n_kind x) Q (ftrait_comb (n_kind x) op) ->
  exists r, float_total op x = Ok r /\ Q (map real_value vals) (float_value r).
Proof.
  intros K G E VI QI QU S1 S2. pose proof G as (_ & W & _). destruct (floats_flt _ vals K (vals_elements x vals G E)) as [FV FE].
  pose proof (wf_map flt _ _ W) as W'. pose proof (elems_map flt _ _ _ E) as E'. unfold float_total.
  rewrite (dispatch_reduce_spec _ _ _ _ _ W' E'). cbn [bind]. destruct ((size (n_arr x) =? 0)%nat || a_c (n_arr x) || (ndim (n_arr x) <=? 1)%nat).
  - destruct (inv_reduce8 _ Q _ _ VI QI S1 QU _ FV) as [A B]. eexists. split; [reflexivity|]. rewrite through_f64 by assumption. rewrite FE in B. exact B.
  - rewrite (trait_reduce_spec _ _ _ _ _ W' E'). cbn [bind]. destruct (inv_fold _ Q _ _ VI QI S2 _ FV) as [A B]. eexists. split; [reflexivity|].
    rewrite (proj1 (as_f64_float _ _ K A)). rewrite FE in B. exact B.
Qed.
Lemma dispatch_axis_inv (Q : list ext -> ext -> Prop) init comb x axis : float_kind (n_kind x) -> good x -> (axis < length (shape_of x))%nat ->
  valid_in (n_kind x) init -> Q [] (float_value init) -> unordered Q -> stable (n_kind x) Q comb ->
  exists sh out, dispatch_reduce_axis init comb (map flt (n_buf x)) (n_arr x) axis = Ok (sh, out) /\
    per_lane Q x axis (mkN (n_kind x) (map SFlt out) (fresh sh (itemsize (n_kind x)))).
Proof.
  intros K G HA VI QI QU S1. pose proof G as (N & W & HE & _). destruct (nth_error (a_shape (n_arr x)) axis) as [n|] eqn:Hn; [|apply nth_error_None in Hn; unfold shape_of in HA; lia].
  pose proof (wf_map flt _ _ W) as W'. destruct (lanes_exist _ _ axis n W' Hn) as [L EL].
  destruct (dispatch_reduce_axis_spec init comb _ _ axis n L W' Hn EL) as (F & HF & ER). rewrite ER. eexists _, _. split; [reflexivity|].
  split; [reflexivity|]. split; [reflexivity|]. intros idx HI. cbn [shape_of n_arr a_shape fresh] in HI.
  destruct (lane_value _ _ axis n idx W Hn HI) as (lv & EV & HB).
  assert (Forall (element (n_kind x)) lv) as FL by (apply Forall_forall; intros v Hv; rewrite Forall_forall in HE; apply HE, HB, Hv).
  destruct (floats_flt _ lv K FL) as [FV FE].
  exists lv, (SFlt (F (map flt lv))). split; [exact EV|]. split.
  - unfold item_at. cbn [n_buf n_arr]. rewrite map_map. apply (lanes_get (map flt (n_buf x)) (n_arr x) axis n L (fun l => SFlt (F l)) _ idx (map flt lv)); try assumption; [apply item_pos; exact N|].
    apply lane_map. exact EV.
  - assert (valid_in (n_kind x) (F (map flt lv)) /\ Q (map float_value (map flt lv)) (float_value (F (map flt lv)))) as [A B].
    { destruct HF as [-> | ->]; [apply inv_reduce8; assumption|apply inv_fold; assumption]. }
    split; [apply float_element; assumption|]. rewrite FE in B. exact B.
Qed.

(* ---- sums -------------------------------------------------------------------------- *)
Lemma total_app a b : total (a ++ b) = total a + total b.
Proof. unfold total. rewrite map_app, fold_right_app. induction (map fin a) as [|z l IH]; cbn; [reflexivity|]. rewrite IH. ring. Qed.
Lemma weight_app a b : weight (a ++ b) = weight a + weight b.
Proof. unfold weight. rewrite map_app, fold_right_app. induction (map (fun e => Z.abs (fin e)) a) as [|z l IH]; cbn; [reflexivity|]. rewrite IH. ring. Qed.
Lemma weight_nonneg a : 0 <= weight a.
Proof. unfold weight. induction a as [|e a IH]; cbn; lia. Qed.
Lemma total_weight a : Z.abs (total a) <= weight a.
Proof. unfold total, weight. induction a as [|e a IH]; cbn; lia. Qed.
Lemma total_unit a U : Forall (fun e => exists m, e = Fin (m * U)) a -> exists m, total a = m * U.
Proof.
  unfold total. induction 1 as [|e a [m ->] HF [n IH]]; cbn [map fold_right fin]; [exists 0; reflexivity|]. exists (m + n). rewrite IH. ring.
Qed.
Lemma total_perm a b : Permutation a b -> total a = total b /\ weight a = weight b.
Proof. induction 1; unfold total, weight in *; cbn [map fold_right]; lia. Qed.
Lemma summable_app p U a b : summable p U (a ++ b) -> summable p U a /\ summable p U b.
Proof.
  intros [H1 H2]. rewrite weight_app in H2. apply Forall_app in H1 as [A B]. pose proof (weight_nonneg a). pose proof (weight_nonneg b).
  split; (split; [assumption|lia]).
Qed.
Lemma summable_perm p U a b : Permutation a b -> summable p U a -> summable p U b.
Proof. intros HP [H1 H2]. split; [eapply Permutation_Forall; eassumption|]. rewrite <- (proj2 (total_perm a b HP)). exact H2. Qed.
Definition sum_inv (k : kind) (U : Z) (l : list ext) (r : ext) : Prop := summable (fst (format k)) U l -> r = Fin (total l).
Lemma summable_holds k U l : float_kind k -> unit_of k U -> summable (fst (format k)) U l -> holds k (total l, 0).
Proof.
  intros K (e & HE & ->) [H1 H2]. destruct (total_unit l _ H1) as [m Hm]. pose proof (total_weight l) as HW. rewrite Hm in *.
  assert (0 < 2 ^ (e + 1074)) as PP by (apply pow_pos; destruct K as [-> |[-> | ->]]; cbn [format fst snd] in HE; lia).
  assert (Z.abs m < 2 ^ fst (format k)) as HM.
  { rewrite Z.abs_mul, (Z.abs_eq (2 ^ (e + 1074))) in HW by lia. apply (Z.mul_lt_mono_pos_r (2 ^ (e + 1074))); [exact PP|]. lia. }
  pose proof (fmt_holds_of (fst (format k)) (snd (format k)) m e HM) as HH. unfold SpecFloat.emin in HH. specialize (HH HE).
  destruct K as [-> |[-> | ->]]; (split; [exact HH|reflexivity]).
Qed.
Lemma sum_both k U l l' a b : float_kind k -> unit_of k U -> valid_in k a -> valid_in k b ->
  sum_inv k U l (float_value a) -> sum_inv k U l' (float_value b) -> sum_inv k U (l ++ l') (float_value (float_elem k AAdd a b)).
Proof.
  intros K HU VA VB HA HB HS. destruct (summable_app _ _ _ _ HS) as [S1 S2].
  apply (float_elem_exact k AAdd a b (total l) (total l')); try assumption; [reflexivity|exact (HA S1)|exact (HB S2)|cbn; unfold exact_sum; apply total_app|].
  apply (summable_holds k U); assumption.
Qed.
Lemma one_float U k x : unit_of k U -> sum_inv k U [float_value x] (float_value x).
Proof. intros HU [H1 H2]. inversion H1 as [|e l [m Hm] _]; subst. rewrite Hm. unfold total. cbn [map fold_right fin]. f_equal. lia. Qed.
Lemma add_valid k a b : float_kind k -> valid_in k a -> valid_in k b -> valid_in k (float_elem k AAdd a b).
Proof. intros. apply float_elem_valid; try assumption. reflexivity. Qed.
Lemma sum_stable k U : float_kind k -> unit_of k U -> stable k (sum_inv k U) (fun a b => float_elem k AAdd a b).
Proof.
  intros K HU. split.
  - intros l a v VA VV HA. split; [apply add_valid; assumption|]. apply sum_both; try assumption. apply one_float; exact HU.
  - intros l l' a b VA VB HA HB. split; [apply add_valid; assumption|]. apply sum_both; assumption.
Qed.
Lemma sum_unordered k U : unordered (sum_inv k U).
Proof. intros l l' r HP H HS. rewrite <- (proj1 (total_perm l l' HP)). apply H. eapply summable_perm; [symmetry; exact HP|exact HS]. Qed.
(* NaN *)
Definition nan_inv (l : list ext) (r : ext) : Prop := In NaN l -> r = NaN.
Lemma elem_nan k op a b : float_kind k -> op = AAdd \/ op = AMul -> float_value a = NaN \/ float_value b = NaN -> float_value (float_elem k op a b) = NaN.
Proof.
  intros K HO [H|H]; apply is_nan_value in H; [destruct a; try discriminate H|destruct b; try discriminate H];
    destruct K as [-> |[-> | ->]], HO as [-> | ->]; try reflexivity; try (destruct b as [| | |? ? ?]; try reflexivity); try (destruct a as [| | |? ? ?]; try reflexivity);
    cbn [float_elem to_format float_bin];
    match goal with |- context [binary_round ?p ?m ?s ?q ?e] => destruct (binary_round p m s q e); reflexivity | _ => idtac end.
Qed.
Lemma nan_stable k op : float_kind k -> op = AAdd \/ op = AMul -> stable k nan_inv (fun a b => float_elem k op a b).
Proof.
  intros K HO. assert (forall a b, valid_in k a -> valid_in k b -> valid_in k (float_elem k op a b)) as HV.
  { intros a b VA VB. apply float_elem_valid; try assumption. destruct HO as [-> | ->]; reflexivity. }
  split.
  - intros l a v VA VV HA. split; [apply HV; assumption|]. intros HI. apply elem_nan; try assumption. apply in_app_or in HI as [HI|HI]; [left; exact (HA HI)|right]. destruct HI as [HI|[]]. exact HI.
  - intros l l' a b VA VB HA HB. split; [apply HV; assumption|]. intros HI. apply elem_nan; try assumption. apply in_app_or in HI as [HI|HI]; [left; exact (HA HI)|right; exact (HB HI)].
Qed.
Lemma nan_unordered : unordered nan_inv.
Proof. intros l l' r HP H HI. apply H. eapply Permutation_in; [symmetry; exact HP|exact HI]. Qed.

(* ---- products ------------------------------------------------------------------------ *)
Lemma times_app a b : times (a ++ b) = times a * times b.
Proof. unfold times. rewrite map_app, fold_right_app. induction (map (fun e => fin e / one) a) as [|z l IH]; cbn [fold_right]; [lia|]. rewrite IH. ring. Qed.
Lemma sizes_app a b : sizes (a ++ b) = sizes a * sizes b.
Proof. unfold sizes. rewrite map_app, fold_right_app. induction (map (fun e => Z.max 1 (Z.abs (fin e / one))) a) as [|z l IH]; cbn [fold_right]; [lia|]. rewrite IH. ring. Qed.
Lemma sizes_pos a : 1 <= sizes a.
Proof. unfold sizes. induction a as [|e a IH]; cbn [map fold_right]; [lia|]. pose proof (Z.le_max_l 1 (Z.abs (fin e / one))). nia. Qed.
Lemma times_sizes a : Z.abs (times a) <= sizes a.
Proof.
  unfold times, sizes. induction a as [|e a IH]; cbn [map fold_right]; [lia|]. rewrite Z.abs_mul.
  apply Z.mul_le_mono_nonneg; lia.
Qed.
Lemma times_perm a b : Permutation a b -> times a = times b /\ sizes a = sizes b.
Proof.
  induction 1; unfold times, sizes in *; cbn [map fold_right].
  - split; reflexivity.
  - destruct IHPermutation as [-> ->]. split; reflexivity.
  - split; ring.
  - destruct IHPermutation1 as [-> ->]. exact IHPermutation2.
Qed.
Lemma multipliable_app p a b : multipliable p (a ++ b) -> multipliable p a /\ multipliable p b.
Proof.
  intros [H1 H2]. rewrite sizes_app in H2. apply Forall_app in H1 as [A B]. pose proof (sizes_pos a). pose proof (sizes_pos b).
  split; (split; [assumption|nia]).
Qed.
Definition prod_inv (k : kind) (l : list ext) (r : ext) : Prop := multipliable (fst (format k)) l -> r = Fin (times l * one).
Lemma prod_both k l l' a b : float_kind k -> valid_in k a -> valid_in k b ->
  prod_inv k l (float_value a) -> prod_inv k l' (float_value b) -> prod_inv k (l ++ l') (float_value (float_elem k AMul a b)).
Proof.
  intros K VA VB HA HB HS. destruct (multipliable_app _ _ _ HS) as [S1 S2].
  apply (float_elem_exact k AMul a b (times l * one) (times l' * one)); try assumption; [reflexivity|exact (HA S1)|exact (HB S2)|cbn [exact_of]; unfold exact_product; rewrite times_app; ring|].
  destruct HS as [_ HS]. pose proof (times_sizes (l ++ l')) as HT.
  destruct K as [-> |[-> | ->]]; (split; [|reflexivity]); cbn [format fst snd] in HS; apply float_int; lia.
Qed.
Lemma whole_div m : m * one / one = m. Proof. apply Z.div_mul. pose proof one_pos. lia. Qed.
Lemma prod_stable k : float_kind k -> stable k (prod_inv k) (fun a b => float_elem k AMul a b).
Proof.
  intros K. assert (forall a b, valid_in k a -> valid_in k b -> valid_in k (float_elem k AMul a b)) as HV by (intros; apply float_elem_valid; try assumption; reflexivity).
  split.
  - intros l a v VA VV HA. split; [apply HV; assumption|]. apply prod_both; try assumption. intros [H1 _]. inversion H1 as [|e l' [m Hm] _]; subst. rewrite Hm. unfold times. cbn [map fold_right fin]. rewrite whole_div. f_equal. ring.
  - intros l l' a b VA VB HA HB. split; [apply HV; assumption|]. apply prod_both; assumption.
Qed.
Lemma prod_unordered k : unordered (prod_inv k).
Proof.
  intros l l' r HP H [H1 H2]. destruct (times_perm l l' HP) as [E1 E2]. rewrite <- E1. apply H. split; [eapply Permutation_Forall; [symmetry; exact HP|exact H1]|]. rewrite E2. exact H2.
Qed.
Lemma unit_value k : float_kind k -> valid_in k (float_unit k) /\ float_value (float_unit k) = Fin one.
Proof. intros [-> |[-> | ->]]; (split; [reflexivity|]); vm_compute; reflexivity. Qed.

(* ---- greatest and least ----------------------------------------------------------------- *)
Definition ahead (up : bool) (e f : ext) : Prop := if up then ext_le e f else ext_le f e.
Definition pick (up : bool) : ext -> ext -> ext -> Prop := nan_loses (if up then larger else smaller).
Definition best_inv (up : bool) (l : list ext) (r : ext) : Prop :=
  r <> NaN /\ (forall e, In e l -> e <> NaN -> ahead up e r) /\ (r = Inf up \/ In r l).
Lemma ahead_trans up a b c : ahead up a b -> ahead up b c -> ahead up a c.
Proof. destruct up; cbn [ahead]; intros H1 H2; eapply ext_le_trans; eassumption. Qed.
Lemma ahead_refl up a : a <> NaN -> ahead up a a.
Proof. destruct up; cbn [ahead]; apply ext_le_refl. Qed.
Lemma ahead_inf up a : ahead up a (Inf up) -> a = Inf up.
Proof. destruct up; cbn [ahead]; destruct a as [|[|]|x]; cbn; tauto. Qed.
Lemma pick_best up e f r : e <> NaN -> pick up e f r ->
  (f = NaN /\ r = e) \/ (f <> NaN /\ (r = e \/ r = f) /\ ahead up e r /\ ahead up f r).
Proof.
  intros HE HP. unfold pick in HP. destruct f as [|s|y]; [left; split; [reflexivity|]; destruct e; try contradiction; exact HP|right|right];
    (split; [discriminate|]); destruct e; try contradiction; destruct up; cbn [nan_loses] in HP; exact HP.
Qed.
Lemma best_step up l e f r : best_inv up l e -> pick up e f r -> best_inv up (l ++ [f]) r.
Proof.
  intros (H1 & H2 & H3) HP. destruct (pick_best up e f r H1 HP) as [[-> ->]|(NF & HR & A & B)].
  - split; [exact H1|]. split; [|destruct H3 as [H3|H3]; [left; exact H3|right; apply in_or_app; left; exact H3]].
    intros g HI HN. apply in_app_or in HI as [HI|[<- |[]]]; [apply H2; assumption|contradiction].
  - split; [destruct HR as [-> | ->]; assumption|]. split.
    + intros g HI HN. apply in_app_or in HI as [HI|[<- |[]]]; [eapply ahead_trans; [apply H2; assumption|exact A]|exact B].
    + destruct HR as [-> | ->]; [destruct H3 as [H3|H3]; [left; exact H3|right; apply in_or_app; left; exact H3]|right; apply in_or_app; right; left; reflexivity].
Qed.
Lemma best_both up l l' e f r : best_inv up l e -> best_inv up l' f -> pick up e f r -> best_inv up (l ++ l') r.
Proof.
  intros (H1 & H2 & H3) (H1' & H2' & H3') HP. destruct (pick_best up e f r H1 HP) as [[EN _]|(NF & HR & A & B)]; [contradiction|].
  split; [destruct HR as [-> | ->]; assumption|]. split.
  - intros g HI HN. apply in_app_or in HI as [HI|HI]; [eapply ahead_trans; [apply H2; assumption|exact A]|eapply ahead_trans; [apply H2'; assumption|exact B]].
  - destruct HR as [-> | ->]; [destruct H3 as [H3|H3]|destruct H3' as [H4|H4]]; [left; exact H3|right; apply in_or_app; left; exact H3|left; exact H4|right; apply in_or_app; right; exact H4].
Qed.
Lemma best_stable k up comb : (forall a b, valid_in k a -> valid_in k b -> valid_in k (comb a b) /\ (float_value a <> NaN -> pick up (float_value a) (float_value b) (float_value (comb a b)))) ->
  stable k (best_inv up) comb.
Proof.
  intros H. split.
  - intros l a v VA VV HA. destruct (H a v VA VV) as [V P]. split; [exact V|]. eapply best_step; [exact HA|]. apply P. apply HA.
  - intros l l' a b VA VB HA HB. destruct (H a b VA VB) as [V P]. split; [exact V|]. eapply best_both; [exact HA|exact HB|]. apply P. apply HA.
Qed.
Lemma best_unordered up : unordered (best_inv up).
Proof.
  intros l l' r HP (H1 & H2 & H3). split; [exact H1|]. split; [intros e HI; apply H2; eapply Permutation_in; [symmetry; exact HP|exact HI]|].
  destruct H3 as [H3|H3]; [left; exact H3|right; eapply Permutation_in; eassumption].
Qed.
Definition best_of (up : bool) : list ext -> ext -> Prop := if up then greatest else least.
Lemma numbers_in l e : In e (numbers l) <-> In e l /\ e <> NaN.
Proof. unfold numbers. rewrite filter_In. destruct e; split; intros [A B]; (split; [exact A|]); congruence. Qed.
Lemma best_final up l r : best_inv up l r -> (numbers l <> [] -> best_of up (numbers l) r) /\ (numbers l = [] -> r = Inf up).
Proof.
  intros (H1 & H2 & H3). assert (forall e, In e (numbers l) -> ahead up e r) as HA by (intros e HI; apply numbers_in in HI as [A B]; apply H2; assumption). split.
  - intros HN. assert (In r (numbers l)) as HI.
    { destruct H3 as [-> |H3]; [|apply numbers_in; split; assumption]. destruct (numbers l) as [|e t]; [contradiction|]. left. apply ahead_inf, HA. left. reflexivity. }
    destruct up; (split; [exact HI|]); apply Forall_forall; exact HA.
  - intros HN. destruct H3 as [H3|H3]; [exact H3|]. assert (In r (numbers l)) as HI by (apply numbers_in; split; assumption). rewrite HN in HI. destruct HI.
Qed.
Definition red_of (up : bool) : red := if up then RMax else RMin.
Lemma kernel_pick k up a b : float_kind k -> valid_in k a -> valid_in k b ->
  valid_in k (fred_comb k (red_of up) a b) /\ (float_value a <> NaN -> pick up (float_value a) (float_value b) (float_value (fred_comb k (red_of up) a b))).
Proof.
  intros K VA VB. split; [destruct up; cbn [red_of fred_comb]; match goal with |- context [if ?c then _ else _] => destruct c end; assumption|].
  intros NA. pose proof (kind_format k K) as HF. destruct (is_nan b) eqn:NB.
  { assert (b = S754_nan) as -> by (destruct b; try discriminate NB; reflexivity). destruct up; cbn [red_of fred_comb]; destruct a; try (exfalso; apply NA; reflexivity); reflexivity. }
  apply not_nan_value in NB. unfold pick. destruct up; cbn [red_of fred_comb]; rewrite if_value.
  - assert (larger (float_value a) (float_value b) (if SFltb a b then float_value b else float_value a)) as HL by (apply larger_pick; try assumption; apply (sfltb_value _ _ _ _ HF); assumption).
    revert NA NB HL. destruct (float_value a), (float_value b); intros; try contradiction; exact HL.
  - assert (smaller (float_value a) (float_value b) (if SFltb b a then float_value b else float_value a)) as HL by (apply smaller_pick; try assumption; apply (sfltb_value _ _ _ _ HF); assumption).
    revert NA NB HL. destruct (float_value a), (float_value b); intros; try contradiction; exact HL.
Qed.
Lemma trait_pick k up a b : float_kind k -> valid_in k a -> valid_in k b ->
  valid_in k (ftrait_comb k (red_of up) a b) /\ (float_value a <> NaN -> pick up (float_value a) (float_value b) (float_value (ftrait_comb k (red_of up) a b))).
Proof.
  intros K VA VB. destruct up; cbn [red_of ftrait_comb].
  - split; [apply float_elem_valid; try assumption; reflexivity|]. intros _. exact (order_elem k AFMax a b K eq_refl VA VB).
  - split; [apply float_elem_valid; try assumption; reflexivity|]. intros _. exact (order_elem k AFMin a b K eq_refl VA VB).
Qed.
Lemma best_init k up : float_kind k -> valid_in k (fred_init k (red_of up)) /\ best_inv up [] (float_value (fred_init k (red_of up))).
Proof.
  intros K. split; [destruct K as [-> |[-> | ->]], up; reflexivity|]. destruct up; (split; [discriminate|]); (split; [intros e []|left; reflexivity]).
Qed.

(* ---- NaN-skipping -------------------------------------------------------------------------- *)
Definition skip (Q : list ext -> ext -> Prop) (l : list ext) (r : ext) : Prop := Q (numbers l) r.
Lemma numbers_app a b : numbers (a ++ b) = numbers a ++ numbers b.
Proof. apply filter_app. Qed.
Lemma numbers_perm a b : Permutation a b -> Permutation (numbers a) (numbers b).
Proof.
  unfold numbers. induction 1; cbn [filter]; [constructor| | |etransitivity; eassumption].
  - destruct x; [exact IHPermutation|constructor; exact IHPermutation|constructor; exact IHPermutation].
  - destruct x, y; try reflexivity; constructor.
Qed.
Lemma skip_unordered Q : unordered Q -> unordered (skip Q).
Proof. intros H l l' r HP HQ. eapply H; [apply numbers_perm; exact HP|exact HQ]. Qed.
(* a NaN partial result is dropped too, so the property has to exclude it *)
Lemma skip_stable k (Q : list ext -> ext -> Prop) (P : list ext -> Prop) comb :
  (forall l l', P (l ++ l') -> P l /\ P l') ->
  stable k (fun l r => P l -> Q l r) comb -> (forall l, P l -> ~ Q l NaN) ->
  stable k (skip (fun l r => P l -> Q l r)) (fun a v => if is_nan v then a else comb a v).
Proof.
  intros HP [H1 H2] HN. split.
  - intros l a v VA VV HQ. unfold skip in *. rewrite numbers_app. destruct (is_nan v) eqn:NV.
    + apply is_nan_value in NV. rewrite NV. cbn [numbers filter]. rewrite app_nil_r. split; assumption.
    + apply not_nan_value in NV. replace (numbers [float_value v]) with [float_value v] by (unfold numbers; cbn [filter]; destruct (float_value v); [contradiction|reflexivity|reflexivity]).
      apply H1; assumption.
  - intros l l' a b VA VB HQ HQ'. unfold skip in *. rewrite numbers_app. destruct (is_nan b) eqn:NB.
    + split; [exact VA|]. intros HPP. apply is_nan_value in NB. rewrite NB in HQ'. destruct (HP _ _ HPP) as [_ P2]. destruct (HN _ P2 (HQ' P2)).
    + apply H2; assumption.
Qed.
Lemma nan_kernel_pick k up a b : float_kind k -> valid_in k a -> valid_in k b ->
  valid_in k (nan_comb k (red_of up) a b) /\ (float_value a <> NaN -> pick up (float_value a) (float_value b) (float_value (nan_comb k (red_of up) a b))).
Proof.
  intros K VA VB. unfold nan_comb. destruct (is_nan b) eqn:NB; [|apply kernel_pick; assumption]. split; [exact VA|]. intros NA. apply is_nan_value in NB. rewrite NB.
  unfold pick. destruct (float_value a); [contradiction|reflexivity|reflexivity].
Qed.
Lemma nan_sum_stable k U : float_kind k -> unit_of k U -> stable k (skip (sum_inv k U)) (nan_comb k RSum).
Proof.
  intros K HU. apply (skip_stable k (fun l r => r = Fin (total l)) (summable (fst (format k)) U) (fun a b => float_elem k AAdd a b)).
  - intros l l'. apply summable_app.
  - apply (sum_stable k U K HU).
  - intros l _. discriminate.
Qed.
Lemma nan_prod_stable k : float_kind k -> stable k (skip (prod_inv k)) (nan_comb k RProd).
Proof.
  intros K. apply (skip_stable k (fun l r => r = Fin (times l * one)) (multipliable (fst (format k))) (fun a b => float_elem k AMul a b)).
  - intros l l'. apply multipliable_app.
  - apply (prod_stable k K).
  - intros l _. discriminate.
Qed.

(* the traversal in f64 *)
Lemma full_spec op x vals : good x -> elems (n_buf x) (n_arr x) = map Some vals ->
  nan_reduce_full op x = Ok (fold_left (full_step op) (map as_f64 vals) (fred_init Float64 op, false)).
Proof.
  intros (_ & W & _) E. unfold nan_reduce_full. pose proof (wf_map as_f64 _ _ W) as W'. pose proof (elems_map as_f64 _ _ _ E) as E'.
  destruct (size (n_arr x) =? 0)%nat eqn:S0.
  - assert (vals = []) as ->; [|reflexivity]. apply (f_equal (@length _)) in E. unfold elems in E. rewrite !map_length, all_idx_length in E.
    apply length_zero_iff_nil. apply Nat.eqb_eq in S0. unfold size in S0. lia.
  - rewrite (read_offsets _ _ _ W' E'). reflexivity.
Qed.
Lemma full_fold op d a b : fold_left (full_step op) d (a, b) =
  (fold_left (fun acc v => if is_nan v then acc else full_comb op acc v) d a, b || existsb (fun v => negb (is_nan v)) d).
Proof.
  revert a b; induction d as [|v d IH]; intros a b; cbn [fold_left existsb]; [rewrite orb_false_r; reflexivity|].
  unfold full_step at 2. cbn [fst snd]. destruct (is_nan v); cbn [negb orb]; rewrite IH; [reflexivity|]. rewrite orb_true_r. reflexivity.
Qed.
Lemma full_floats k vals : float_kind k -> Forall (element k) vals -> Forall (valid_in Float64) (map as_f64 vals) /\ map float_value (map as_f64 vals) = map real_value vals.
Proof.
  intros K HF. induction HF as [|v l Hv HF [IH1 IH2]]; [split; constructor|]. destruct (element_float k v K Hv) as (x & -> & V). cbn [map].
  destruct (as_f64_float k x K V) as [A B]. split; [constructor; assumption|]. f_equal; [exact A|exact IH2].
Qed.
Lemma found_numbers d : existsb (fun v => negb (is_nan v)) d = true <-> numbers (map float_value d) <> [].
Proof.
  rewrite existsb_exists. split.
  - intros (v & HI & HN). apply negb_true_iff in HN. apply not_nan_value in HN. intros E. assert (In (float_value v) (numbers (map float_value d))) as H by (apply numbers_in; split; [apply in_map; exact HI|exact HN]). rewrite E in H. destruct H.
  - intros H. destruct (numbers (map float_value d)) as [|e t] eqn:E; [contradiction|]. assert (In e (numbers (map float_value d))) as HI by (rewrite E; left; reflexivity).
    apply numbers_in in HI as [HI HN]. apply in_map_iff in HI as (v & <- & HI). exists v. split; [exact HI|]. apply negb_true_iff. destruct (is_nan v) eqn:NV; [|reflexivity]. apply is_nan_value in NV. contradiction.
Qed.
Lemma full_comb_is op acc v : float_elem Float64 match op with RSum => AAdd | RProd => AMul | RMax => AFMax | RMin => AFMin end acc v = full_comb op acc v.
Proof. destruct op; reflexivity. Qed.
Lemma nan_total_cases op x vals : float_kind (n_kind x) -> good x -> elems (n_buf x) (n_arr x) = map Some vals ->
  let d := map flt vals in let d64 := map as_f64 vals in
  let v := as_f64 (SFlt (reduce8 (fred_init (n_kind x) op) (nan_comb (n_kind x) op) d)) in
  let w := fold_left (fun acc v => if is_nan v then acc else full_comb op acc v) d64 (fred_init Float64 op) in
  nan_total op x = Ok (match op with
          | RMax => if SFeqb v (S754_infinity true) then S754_nan else v
          | RMin => if SFeqb v (S754_infinity false) then S754_nan else v
          | _ => v
          end) \/
  nan_total op x = Ok (match op with RMax | RMin => if existsb (fun v => negb (is_nan v)) d64 then w else S754_nan | _ => w end).
Proof.
  intros K G E d d64 v w. pose proof G as (_ & W & _). pose proof (wf_map flt _ _ W) as W'. pose proof (elems_map flt _ _ _ E) as E'.
  assert (HF : bind (nan_reduce_full op x) (fun r => Ok (match op with RMax | RMin => if snd r then fst r else S754_nan | _ => fst r end)) =
    Ok (match op with RMax | RMin => if existsb (fun v => negb (is_nan v)) d64 then w else S754_nan | _ => w end)).
  { rewrite (full_spec op x vals G E), full_fold. cbn [bind fst snd orb]. reflexivity. }
  unfold nan_total, nan_dispatch. destruct K as [K|K].
  - right. rewrite K. cbn [bind]. exact HF.
  - assert (forall A (a b : A), match n_kind x with Float64 | Float32 => a | _ => b end = a) as -> by (intros; destruct K as [-> | ->]; reflexivity).
    rewrite (dispatch_reduce_spec _ _ _ _ _ W' E'). cbn [bind]. destruct ((size (n_arr x) =? 0)%nat || a_c (n_arr x) || (ndim (n_arr x) <=? 1)%nat); cbn [option_map]; [left; reflexivity|right; exact HF].
Qed.
Lemma wide_summable k U l : float_kind k -> unit_of k U -> summable (fst (format k)) U l -> unit_of Float64 U /\ summable 53 U l.
Proof.
  intros K (e & HE & ->) [H1 H2]. split; [exists e; split; [destruct K as [-> |[-> | ->]]; cbn [format fst snd] in *; lia|reflexivity]|]. split; [exact H1|].
  eapply Z.lt_le_trans; [exact H2|]. apply Z.mul_le_mono_nonneg_r; [|apply Z.pow_le_mono_r; destruct K as [-> |[-> | ->]]; cbn [format fst snd]; lia].
  apply Z.lt_le_incl, pow_pos. destruct K as [-> |[-> | ->]]; cbn [format fst snd] in HE; lia.
Qed.
Lemma wide_multipliable k l : float_kind k -> multipliable (fst (format k)) l -> multipliable 53 l.
Proof.
  intros K [H1 H2]. split; [exact H1|]. eapply Z.lt_le_trans; [exact H2|]. apply Z.pow_le_mono_r; destruct K as [-> |[-> | ->]]; cbn [format fst snd]; lia.
Qed.
Lemma stable_ext k Q c c' : (forall a b, c a b = c' a b) -> stable k Q c -> stable k Q c'.
Proof. intros H [H1 H2]. split; intros; rewrite <- H; [apply H1|apply H2]; assumption. Qed.
Lemma f64_kind : float_kind Float64. Proof. right; right; reflexivity. Qed.

Lemma nan_total_sum x vals U : float_kind (n_kind x) -> good x -> elems (n_buf x) (n_arr x) = map Some vals -> unit_of (n_kind x) U ->
  summable (fst (format (n_kind x))) U (numbers (map real_value vals)) ->
  exists r, nan_total RSum x = Ok r /\ float_value r = Fin (total (numbers (map real_value vals))).
Proof.
  intros K G E HU HS. pose proof (vals_elements x vals G E) as FE. destruct (nan_total_cases RSum x vals K G E) as [-> | ->]; eexists; (split; [reflexivity|]).
  - destruct (floats_flt _ _ K FE) as [FV EV]. destruct (inv_reduce8 (n_kind x) (skip (sum_inv (n_kind x) U)) (fred_init (n_kind x) RSum) (nan_comb (n_kind x) RSum)) with (l := map flt vals) as [A B].
    + destruct K as [-> |[-> | ->]]; reflexivity.
    + intros _. reflexivity.
    + apply nan_sum_stable; assumption.
    + apply skip_unordered, sum_unordered.
    + exact FV.
    + rewrite (proj1 (as_f64_float _ _ K A)), (B ltac:(rewrite EV; exact HS)), EV. reflexivity.
  - destruct (full_floats _ _ K FE) as [FV EV]. destruct (wide_summable _ _ _ K HU HS) as [HU' HS'].
    destruct (inv_fold Float64 (skip (sum_inv Float64 U)) (fred_init Float64 RSum) (nan_comb Float64 RSum)) with (l := map as_f64 vals) as [A B].
    + reflexivity.
    + intros _. reflexivity.
    + apply nan_sum_stable; [exact f64_kind|exact HU'] .
    + exact FV.
    + transitivity (float_value (fold_left (nan_comb Float64 RSum) (map as_f64 vals) (fred_init Float64 RSum))); [reflexivity|].
      rewrite (B ltac:(rewrite EV; exact HS')), EV. reflexivity.
Qed.
Lemma nan_total_prod x vals : float_kind (n_kind x) -> good x -> elems (n_buf x) (n_arr x) = map Some vals ->
  multipliable (fst (format (n_kind x))) (numbers (map real_value vals)) ->
  exists r, nan_total RProd x = Ok r /\ float_value r = Fin (times (numbers (map real_value vals)) * one).
Proof.
  intros K G E HS. pose proof (vals_elements x vals G E) as FE. destruct (nan_total_cases RProd x vals K G E) as [-> | ->]; eexists; (split; [reflexivity|]).
  - destruct (floats_flt _ _ K FE) as [FV EV]. destruct (unit_value _ K) as [VU EU].
    destruct (inv_reduce8 (n_kind x) (skip (prod_inv (n_kind x))) (fred_init (n_kind x) RProd) (nan_comb (n_kind x) RProd)) with (l := map flt vals) as [A B].
    + exact VU.
    + intros _. cbn [fred_init]. rewrite EU. reflexivity.
    + apply nan_prod_stable; assumption.
    + apply skip_unordered, prod_unordered.
    + exact FV.
    + rewrite (proj1 (as_f64_float _ _ K A)), (B ltac:(rewrite EV; exact HS)), EV. reflexivity.
  - destruct (full_floats _ _ K FE) as [FV EV]. pose proof (wide_multipliable _ _ K HS) as HS'. destruct (unit_value _ f64_kind) as [VU EU].
    destruct (inv_fold Float64 (skip (prod_inv Float64)) (fred_init Float64 RProd) (nan_comb Float64 RProd)) with (l := map as_f64 vals) as [A B].
    + exact VU.
    + intros _. cbn [fred_init]. rewrite EU. reflexivity.
    + apply nan_prod_stable; exact f64_kind.
    + exact FV.
    + transitivity (float_value (fold_left (nan_comb Float64 RProd) (map as_f64 vals) (fred_init Float64 RProd))); [reflexivity|].
      rewrite (B ltac:(rewrite EV; exact HS')), EV. reflexivity.
Qed.
Lemma full_pick up a b : valid_in Float64 a -> valid_in Float64 b ->
  let c := fun acc v => if is_nan v then acc else full_comb (red_of up) acc v in
  valid_in Float64 (c a b) /\ (float_value a <> NaN -> pick up (float_value a) (float_value b) (float_value (c a b))).
Proof.
  intros VA VB c. unfold c. destruct (is_nan b) eqn:NB.
  - split; [exact VA|]. intros NA. apply is_nan_value in NB. rewrite NB. unfold pick. destruct (float_value a); [contradiction|reflexivity|reflexivity].
  - destruct (trait_pick Float64 up a b f64_kind VA VB) as [A B]. destruct up; split; assumption.
Qed.
Lemma nan_total_best up x vals : float_kind (n_kind x) -> good x -> elems (n_buf x) (n_arr x) = map Some vals ->
  exists r, nan_total (red_of up) x = Ok r /\ (numbers (map real_value vals) = [] -> float_value r = NaN) /\
    ((exists e, In e (numbers (map real_value vals)) /\ e <> Inf up) -> best_of up (numbers (map real_value vals)) (float_value r)).
Proof.
  intros K G E. pose proof (vals_elements x vals G E) as FE. destruct (nan_total_cases (red_of up) x vals K G E) as [H|H]; rewrite H; eexists; (split; [reflexivity|]).
  - destruct (floats_flt _ _ K FE) as [FV EV]. destruct (best_init (n_kind x) up K) as [BI BQ].
    destruct (inv_reduce8 (n_kind x) (best_inv up) _ (nan_comb (n_kind x) (red_of up)) BI BQ) with (l := map flt vals) as [A B].
    + apply best_stable. intros. apply nan_kernel_pick; assumption.
    + apply best_unordered.
    + exact FV.
    + rewrite EV in B. destruct (best_final _ _ _ B) as [B1 B2]. destruct (as_f64_float _ _ K A) as [C D].
      set (v := as_f64 _) in *. rewrite <- C in *.
      assert (HQ : SFeqb v (S754_infinity up) = true <-> float_value v = Inf up).
      { rewrite (eqb_value 53 1024 v (S754_infinity up) f64_format D eq_refl). change (float_value (S754_infinity up)) with (Inf up). destruct (float_value v) as [|s|z], up; try destruct s; cbn; split; congruence. }
      assert (match red_of up with RMax => if SFeqb v (S754_infinity true) then S754_nan else v | RMin => if SFeqb v (S754_infinity false) then S754_nan else v | _ => v end = if SFeqb v (S754_infinity up) then S754_nan else v) as -> by (destruct up; reflexivity).
      split.
      * intros HN. rewrite (proj2 HQ (B2 HN)). reflexivity.
      * intros (e & HI & HE). assert (numbers (map real_value vals) <> []) as HN by (intros Z; rewrite Z in HI; destruct HI).
        destruct (SFeqb v (S754_infinity up)) eqn:Q; [|exact (B1 HN)]. pose proof (proj1 HQ eq_refl) as QV. exfalso. apply HE, ahead_inf. rewrite <- QV.
        apply numbers_in in HI as [HI1 HI2]. apply (proj1 (proj2 B)); assumption.
  - destruct (full_floats _ _ K FE) as [FV EV]. destruct (best_init Float64 up f64_kind) as [BI BQ].
    destruct (inv_fold Float64 (best_inv up) _ (fun acc v => if is_nan v then acc else full_comb (red_of up) acc v) BI BQ) with (l := map as_f64 vals) as [A B].
    + apply best_stable. intros. apply full_pick; assumption.
    + exact FV.
    + pose proof (found_numbers (map as_f64 vals)) as FN. rewrite EV in B, FN. destruct (best_final _ _ _ B) as [B1 B2]. set (w := fold_left _ _ _) in *.
      assert (match red_of up with RMax | RMin => if existsb (fun v => negb (is_nan v)) (map as_f64 vals) then w else S754_nan | _ => w end = if existsb (fun v => negb (is_nan v)) (map as_f64 vals) then w else S754_nan) as -> by (destruct up; reflexivity).
      destruct (existsb (fun v => negb (is_nan v)) (map as_f64 vals)) eqn:X.
      * pose proof (proj1 FN eq_refl) as HN. split; [intros Z; contradiction|]. intros _. exact (B1 HN).
      * split; [reflexivity|]. intros (e & HI & HE). assert (numbers (map real_value vals) <> []) as HN by (intros Z; rewrite Z in HI; destruct HI). apply FN in HN. discriminate.
Qed.

(* ---- positions ------------------------------------------------------------------------------ *)
Lemma scan_inv up (p d : list spec_float) b at_ : Forall (valid_in Float64) d -> valid_in Float64 b -> best_inv up (map float_value p) (float_value b) ->
  (forall i, at_ = Some i -> (exists w, nth_error p i = Some w /\ float_value w = float_value b) /\
     forall j w, (j < i)%nat -> nth_error p j = Some w -> float_value w <> float_value b) ->
  (at_ = None -> float_value b = Inf up) ->
  let r := nanarg_scan (fun v best => if up then SFltb best v else SFltb v best) d (length p) b at_ in
  exists b', best_inv up (map float_value (p ++ d)) b' /\
    (forall i, r = Some i -> (exists w, nth_error (p ++ d) i = Some w /\ float_value w = b') /\
       forall j w, (j < i)%nat -> nth_error (p ++ d) j = Some w -> float_value w <> b') /\
    (r = None -> b' = Inf up).
Proof.
  revert p b at_. induction d as [|v d IH]; intros p b at_ HD VB HB HS HN; cbv zeta.
  { exists (float_value b). rewrite app_nil_r. repeat split; try apply HB; cbn [nanarg_scan]; try assumption; apply HS; assumption. }
  inversion HD as [|? ? VV HD']; subst. cbn [nanarg_scan]. replace (p ++ v :: d) with ((p ++ [v]) ++ d) by (rewrite <- app_assoc; reflexivity).
  replace (length p + 1)%nat with (length (p ++ [v])) by (rewrite app_length; reflexivity).
  assert (HC : (if up then SFltb b v else SFltb v b) = true <-> if up then ext_lt (float_value b) (float_value v) else ext_lt (float_value v) (float_value b)).
  { destruct up; apply (sfltb_value 53 1024); try assumption; apply f64_format. }
  destruct (negb (is_nan v) && (if up then SFltb b v else SFltb v b)) eqn:C.
  - apply andb_true_iff in C as [C1 C2]. apply negb_true_iff in C1. apply not_nan_value in C1. apply (proj1 HC) in C2.
    assert (HA : ahead up (float_value b) (float_value v)) by (destruct up; apply ext_lt_le; exact C2).
    assert (HX : ~ ahead up (float_value v) (float_value b)) by (destruct HB as (NB & _); destruct up; cbn [ahead]; rewrite ext_le_iff by assumption; tauto).
    apply IH; try assumption.
    + rewrite map_app. eapply best_step; [exact HB|]. unfold pick. destruct HB as (NB & _). revert NB C1 HA. destruct (float_value b), (float_value v), up; intros; try contradiction; (split; [right; reflexivity|]); (split; [exact HA|]); apply ext_le_refl; discriminate.
    + intros i Hi. injection Hi as <-. split; [exists v; split; [rewrite nth_error_app2, Nat.sub_diag by lia; reflexivity|reflexivity]|].
      intros j w HJ HW. rewrite nth_error_app1 in HW by exact HJ. intros EW. apply HX. rewrite <- EW. apply (proj1 (proj2 HB)); [apply in_map; eapply nth_error_In; exact HW|rewrite EW; exact C1].
    + discriminate.
  - apply IH; try assumption.
    + rewrite map_app. apply best_step with (e := float_value b); [exact HB|]. destruct HB as (NB & _). unfold pick. destruct (is_nan v) eqn:NV.
      * apply is_nan_value in NV. rewrite NV. destruct (float_value b); [contradiction|reflexivity|reflexivity].
      * cbn [negb andb] in C. apply not_nan_value in NV. assert (HA : ahead up (float_value v) (float_value b)).
        { destruct up; cbn [ahead]; apply ext_le_iff; try assumption; intros L; apply (proj2 HC) in L; congruence. }
        revert NB NV HA. destruct (float_value b), (float_value v), up; intros; try contradiction; (split; [left; reflexivity|]); (split; [apply ext_le_refl; discriminate|exact HA]).
    + intros i Hi. destruct (HS i Hi) as [(w & EW & VW) HF]. assert (i < length p)%nat as HL by (apply nth_error_Some; rewrite EW; discriminate). split; [exists w; split; [rewrite nth_error_app1 by exact HL; exact EW|exact VW]|].
      intros j w' HJ HW. rewrite nth_error_app1 in HW by lia. exact (HF j w' HJ HW).
Qed.
Lemma nanarg_spec up x vals : float_kind (n_kind x) -> good x -> elems (n_buf x) (n_arr x) = map Some vals ->
  (exists e, In e (numbers (map real_value vals)) /\ e <> Inf up) ->
  exists i b, nanarg up x = Ok i /\ best_of up (numbers (map real_value vals)) b /\ nth_error (map real_value vals) i = Some b /\
    forall j, (j < i)%nat -> nth_error (map real_value vals) j <> Some b.
Proof.
  intros K G E HE. pose proof (vals_elements x vals G E) as FE. destruct (full_floats _ _ K FE) as [FV EV]. pose proof G as (_ & W & _). unfold nanarg.
  destruct (size (n_arr x) =? 0)%nat eqn:S0.
  { exfalso. assert (vals = []) as ->; [|destruct HE as (e & HI & _); destruct HI]. apply (f_equal (@length _)) in E. unfold elems in E. rewrite !map_length, all_idx_length in E.
    apply length_zero_iff_nil. apply Nat.eqb_eq in S0. unfold size in S0. lia. }
  rewrite (read_offsets _ _ _ (wf_map as_f64 _ _ W) (elems_map as_f64 _ _ _ E)). cbn [bind].
  destruct (scan_inv up [] (map as_f64 vals) (S754_infinity up) None FV eq_refl) as (b & HB & HS & HN).
  - split; [discriminate|]. split; [intros e []|left; reflexivity].
  - intros i Hi. discriminate Hi.
  - reflexivity.
  - cbn [app] in *. change (length (@nil spec_float)) with 0%nat in *. rewrite EV in HB. destruct (best_final _ _ _ HB) as [B1 _].
    destruct (nanarg_scan _ _ _ _ _) as [i|].
    + exists i, b. split; [reflexivity|]. destruct (HS i eq_refl) as [(w & EW & VW) HF]. split; [apply B1; intros Z; rewrite Z in HE; destruct HE as (e & HI & _); destruct HI|].
      rewrite <- EV. split; [rewrite nth_error_map, EW; cbn; rewrite VW; reflexivity|]. intros j HJ HW. rewrite nth_error_map in HW. destruct (nth_error (map as_f64 vals) j) as [w'|] eqn:EJ; [|discriminate HW]. injection HW as HW. exact (HF j w' HJ EJ HW).
    + exfalso. destruct HE as (e & HI & NE). apply NE, ahead_inf. rewrite <- (HN eq_refl). apply numbers_in in HI as [H1 H2]. apply (proj1 (proj2 HB)); assumption.
Qed.

(* ---- bool ------------------------------------------------------------------------------------- *)
Lemma bool_element v : element Bool v -> v = SInt 0 \/ v = SInt 1.
Proof.
  destruct v as [z| |]; try contradiction. cbn [element]. intros H. destruct H as [H _]. apply int_elem_range in H.
  assert (z = 0 \/ z = 1) as [-> | ->] by lia; [left|right]; reflexivity.
Qed.
Definition bit (v : scalar) : Z := match v with SInt z => z | _ => 0 end.
Lemma bool_fold op vals b : Forall (element Bool) vals ->
  (if fold_left (bool_comb op) (map truth vals) b then 1 else 0) =
  match op with
  | RSum | RMax => Z.min 1 ((if b then 1 else 0) + zsum (map bit vals))
  | RProd | RMin => (if b then 1 else 0) * zprod (map bit vals)
  end.
Proof.
  intros HF. revert b. assert (HP : 0 <= zsum (map bit vals)). { clear - HF. unfold zsum. induction HF as [|v l Hv HF IH]; cbn [map fold_right]; [lia|]. destruct (bool_element v Hv) as [-> | ->]; cbn [bit]; lia. }
  induction HF as [|v l Hv HF IH]; intros b.
  - destruct op, b; reflexivity.
  - cbn [map fold_left zsum zprod fold_right] in *. fold (zsum (map bit l)) in *. fold (zprod (map bit l)) in *.
    assert (0 <= zsum (map bit l)) as HP'. { clear - HF. unfold zsum. induction HF as [|v l Hv HF IH]; cbn [map fold_right]; [lia|]. destruct (bool_element v Hv) as [-> | ->]; cbn [bit]; lia. }
    rewrite (IH HP'). clear IH. destruct (bool_element v Hv) as [-> | ->]; cbn [truth bit Z.eqb negb];
      destruct op, b; cbn [bool_comb orb andb]; lia.
Qed.
Lemma bool_total_spec op x vals : n_kind x = Bool -> good x -> elems (n_buf x) (n_arr x) = map Some vals ->
  exists r, bool_total op x = Ok r /\ float_value r = Fin (match op with RSum | RMax => Z.min 1 (zsum (map bit vals)) | RProd | RMin => zprod (map bit vals) end * one).
Proof.
  intros K G E. pose proof (vals_elements x vals G E) as FE. rewrite K in FE. pose proof G as (_ & W & _). unfold bool_total.
  rewrite (trait_reduce_spec _ _ _ _ _ (wf_map truth _ _ W) (elems_map truth _ _ _ E)). cbn [bind]. eexists. split; [reflexivity|]. rewrite bool_fold by exact FE.
  assert (HR : forall z, (if fold_left (bool_comb op) (map truth vals) (bool_init op) then 1 else 0) = z -> float_value (as_f64 (SInt z)) = Fin (z * one)).
  { intros z <-. destruct (fold_left _ _ _); [destruct (as_f64_value Bool (SInt 1)) as [A _]|destruct (as_f64_value Bool (SInt 0)) as [A _]];
      try reflexivity; try (split; [apply int_int; lia|reflexivity]); try exact A; try (apply (narrow_fits Bool); [reflexivity|reflexivity|split; [apply int_int; lia|reflexivity]]). }
  rewrite <- (bool_fold op vals (bool_init op) FE). rewrite HR by reflexivity. f_equal. rewrite bool_fold by exact FE. destruct op; cbn [bool_init]; f_equal; lia.
Qed.
Lemma bool_axis_spec op x axis : n_kind x = Bool -> good x -> (axis < length (shape_of x))%nat -> nth_error (shape_of x) axis <> Some 0%nat ->
  exists out, bool_axis op x axis = Ok (reduced_shape axis (shape_of x), out) /\
    forall idx, inb idx (reduced_shape axis (shape_of x)) -> exists lv b,
      lane (n_buf x) (n_arr x) axis (outer_of (shape_of x) idx) = map Some lv /\ get out (fresh (reduced_shape axis (shape_of x)) 1) idx = Some b /\
      (if b : bool then 1 else 0) = match op with RSum | RMax => Z.min 1 (zsum (map bit lv)) | RProd | RMin => zprod (map bit lv) end.
Proof.
  intros K G HA NZ. pose proof G as (_ & W & HE & _). unfold shape_of in *. destruct (nth_error (a_shape (n_arr x)) axis) as [n|] eqn:Hn; [|apply nth_error_None in Hn; lia].
  pose proof (wf_map truth _ _ W) as W'. destruct (lanes_exist _ _ axis n W' Hn) as [L EL]. assert (0 < n)%nat as HP by (destruct n; [congruence|lia]).
  unfold bool_axis. rewrite (trait_reduce_axis_spec _ _ false _ _ axis n L W' Hn HP EL). eexists. split; [reflexivity|]. intros idx HI.
  destruct (lane_value _ _ axis n idx W Hn HI) as (lv & EV & HB). assert (Forall (element Bool) lv) as FL by (rewrite K in HE; apply Forall_forall; intros v Hv; rewrite Forall_forall in HE; apply HE, HB, Hv).
  exists lv, (fold_left (bool_comb op) (map truth lv) (bool_init op)). split; [exact EV|]. split.
  - apply (lanes_get (map truth (n_buf x)) (n_arr x) axis n L (fun d => fold_left (bool_comb op) d (bool_init op)) 1 idx (map truth lv)); try assumption; [lia|]. apply lane_map. exact EV.
  - rewrite bool_fold by exact FL. destruct op; cbn [bool_init]; lia.
Qed.

(* ---- complex ------------------------------------------------------------------------------------ *)
Definition cpx_entry (Q : list (ext * ext) -> ext * ext -> Prop) (x : narr) (axis : nat) (sh : list nat) (out : list cpx) : Prop :=
  sh = reduced_shape axis (shape_of x) /\ forall idx, inb idx sh -> exists lv r,
    lane (n_buf x) (n_arr x) axis (outer_of (shape_of x) idx) = map Some lv /\ get out (fresh sh (itemsize (n_kind x))) idx = Some r /\
    Q (map value lv) (value (SCpx (fst r) (snd r))).
Lemma complex_element k v : is_complex_kind k = true -> element k v ->
  exists a b, v = SCpx a b /\ valid_in (part_kind k) a /\ valid_in (part_kind k) b.
Proof. destruct k; try discriminate; destruct v; try contradiction; intros _ [A B]; eexists _, _; (split; [reflexivity|]); split; assumption. Qed.
Lemma part_add k : is_complex_kind k = true -> forall a b, SFadd (fst (part k)) (snd (part k)) a b = float_elem (part_kind k) AAdd a b.
Proof. destruct k; try discriminate; reflexivity. Qed.
Definition csum_inv (k : kind) (U : Z) (l : list cpx) (r : cpx) : Prop :=
  valid_in (part_kind k) (fst r) /\ valid_in (part_kind k) (snd r) /\
  sum_inv (part_kind k) U (map (fun v => float_value (fst v)) l) (float_value (fst r)) /\
  sum_inv (part_kind k) U (map (fun v => float_value (snd v)) l) (float_value (snd r)).
Lemma csum_orders k U : is_complex_kind k = true -> unit_of (part_kind k) U -> forall l, Forall (fun v => valid_in (part_kind k) (fst v) /\ valid_in (part_kind k) (snd v)) l ->
  csum_inv k U l (reduce8 (red_init (fst (part k)) (snd (part k)) RSum) (red_comb (fst (part k)) (snd (part k)) RSum) l) /\
  csum_inv k U l (fold_left (red_comb (fst (part k)) (snd (part k)) RSum) l (red_init (fst (part k)) (snd (part k)) RSum)).
Proof.
  intros C HU l HL. assert (KF : float_kind (part_kind k)) by (destruct (complex_part k C) as [-> | ->]; [right; left; reflexivity|right; right; reflexivity]).
  destruct (sum_stable (part_kind k) U KF HU) as [S1 S2].
  assert (R0 : csum_inv k U [] (red_init (fst (part k)) (snd (part k)) RSum)).
  { assert (valid_in (part_kind k) (S754_zero false)) by (destruct (complex_part k C) as [-> | ->]; reflexivity).
    split; [assumption|]. split; [assumption|]. split; intros _; reflexivity. }
  assert (R1 : forall l a v, csum_inv k U l a -> valid_in (part_kind k) (fst v) /\ valid_in (part_kind k) (snd v) -> csum_inv k U (l ++ [v]) (red_comb (fst (part k)) (snd (part k)) RSum a v)).
  { intros l' a v (A1 & A2 & A3 & A4) [B1 B2]. unfold csum_inv. rewrite !map_app. cbn [red_comb fst snd map]. rewrite !(part_add k C).
    destruct (S1 _ _ _ A1 B1 A3) as [P1 P2]. destruct (S1 _ _ _ A2 B2 A4) as [P3 P4]. repeat split; assumption. }
  assert (R2 : forall l l' a b, csum_inv k U l a -> csum_inv k U l' b -> csum_inv k U (l ++ l') (red_comb (fst (part k)) (snd (part k)) RSum a b)).
  { intros l1 l2 a b (A1 & A2 & A3 & A4) (B1 & B2 & B3 & B4). unfold csum_inv. rewrite !map_app. cbn [red_comb fst snd map]. rewrite !(part_add k C).
    destruct (S2 _ _ _ _ A1 B1 A3 B3) as [P1 P2]. destruct (S2 _ _ _ _ A2 B2 A4 B4) as [P3 P4]. repeat split; assumption. }
  assert (RP : forall l l' a, Permutation l l' -> csum_inv k U l a -> csum_inv k U l' a).
  { intros l1 l2 a HP (A1 & A2 & A3 & A4). repeat split; try assumption; (eapply sum_unordered; [apply Permutation_map; exact HP|assumption]). }
  split; [exact (reduce8_order _ _ _ (csum_inv k U) R0 R1 R2 RP l HL)|exact (fold_init_order _ _ _ (csum_inv k U) R0 R1 l HL)].
Qed.
Lemma cpx_buf k l : is_complex_kind k = true -> Forall (element k) l ->
  Forall (fun v => valid_in (part_kind k) (fst v) /\ valid_in (part_kind k) (snd v)) (map scalar_cpx l) /\
  map (fun v => float_value (fst v)) (map scalar_cpx l) = map fst (map value l) /\
  map (fun v => float_value (snd v)) (map scalar_cpx l) = map snd (map value l).
Proof.
  intros C HF. induction HF as [|v l Hv HF (IH1 & IH2 & IH3)]; [repeat split; constructor|]. destruct (complex_element k v C Hv) as (a & b & -> & VA & VB).
  cbn [map scalar_cpx]. split; [constructor; [split; assumption|exact IH1]|]. split; cbn [fst snd value]; f_equal; assumption.
Qed.
Lemma cpx_axis_lanes op x axis (Q : list (ext * ext) -> ext * ext -> Prop) : is_complex_kind (n_kind x) = true -> good x -> (axis < length (shape_of x))%nat ->
  (forall F lv, (F = reduce8 (red_init (fst (part (n_kind x))) (snd (part (n_kind x))) op) (red_comb (fst (part (n_kind x))) (snd (part (n_kind x))) op) \/
                 F = fun d => fold_left (red_comb (fst (part (n_kind x))) (snd (part (n_kind x))) op) d (red_init (fst (part (n_kind x))) (snd (part (n_kind x))) op)) ->
    Forall (element (n_kind x)) lv -> let r := F (map scalar_cpx lv) in Q (map value lv) (value (SCpx (fst r) (snd r)))) ->
  exists sh out, cpx_reduce_axis op x axis = Ok (sh, out) /\ cpx_entry Q x axis sh out.
Proof.
  intros C G HA HQ. pose proof G as (N & W & HE & _). unfold shape_of in *. destruct (nth_error (a_shape (n_arr x)) axis) as [n|] eqn:Hn; [|apply nth_error_None in Hn; lia].
  pose proof (wf_map scalar_cpx _ _ W) as W'. destruct (lanes_exist _ _ axis n W' Hn) as [L EL]. unfold cpx_reduce_axis.
  destruct (part (n_kind x)) as [p m] eqn:EP. cbn [fst snd] in HQ.
  destruct (dispatch_reduce_axis_spec (red_init p m op) (red_comb p m op) _ _ axis n L W' Hn EL) as (F & HF & ER). rewrite ER. eexists _, _. split; [reflexivity|].
  split; [reflexivity|]. intros idx HI. destruct (lane_value _ _ axis n idx W Hn HI) as (lv & EV & HB).
  assert (Forall (element (n_kind x)) lv) as FL by (apply Forall_forall; intros v Hv; rewrite Forall_forall in HE; apply HE, HB, Hv).
  exists lv, (F (map scalar_cpx lv)). split; [exact EV|]. split; [|apply HQ; assumption].
  apply (lanes_get (map scalar_cpx (n_buf x)) (n_arr x) axis n L F _ idx (map scalar_cpx lv)); try assumption; [apply item_pos; exact N|]. apply lane_map. exact EV.
Qed.
Lemma norm_inf p m a : p = 24 /\ m = 128 \/ p = 53 /\ m = 1024 -> SFltb (norm_sqr p m (S754_infinity true, zero)) a = false.
Proof. intros [[-> ->]|[-> ->]]; destruct a as [[]|[]| |[] ? ?]; reflexivity. Qed.
Lemma max_stuck p m l : p = 24 /\ m = 128 \/ p = 53 /\ m = 1024 ->
  reduce8 (red_init p m RMax) (red_comb p m RMax) l = (S754_infinity true, zero) /\ fold_left (red_comb p m RMax) l (red_init p m RMax) = (S754_infinity true, zero).
Proof.
  intros HP. assert (HS : forall v, red_comb p m RMax (S754_infinity true, zero) v = (S754_infinity true, zero)) by (intros v; cbn [red_comb]; rewrite (norm_inf p m _ HP); reflexivity).
  assert (HD : Forall (fun _ : cpx => True) l) by (apply Forall_forall; intros; exact I).
  split; [apply (reduce8_order (red_init p m RMax) (red_comb p m RMax) (fun _ => True) (fun _ r => r = (S754_infinity true, zero)))|apply (fold_init_order (red_init p m RMax) (red_comb p m RMax) (fun _ => True) (fun _ r => r = (S754_infinity true, zero)))];
    cbv beta; try reflexivity; try exact HD; intros; subst; first [apply HS|assumption|reflexivity].
Qed.
Lemma cpx_total_zero op x : is_complex_kind (n_kind x) = true -> good x -> cpx_total op x = Ok (S754_zero false).
Proof.
  intros C G. pose proof G as (_ & W & _). destruct (wf_elems _ _ W) as (vals & E & _). pose proof (wf_map scalar_cpx _ _ W) as W'. pose proof (elems_map scalar_cpx _ _ _ E) as E'.
  unfold cpx_total, cpx_reduce. destruct (part (n_kind x)) as [p m]. rewrite (dispatch_reduce_spec _ _ _ _ _ W' E'). cbn [bind].
  destruct ((size (n_arr x) =? 0)%nat || a_c (n_arr x) || (ndim (n_arr x) <=? 1)%nat); [reflexivity|]. rewrite (trait_reduce_spec _ _ _ _ _ W' E'). reflexivity.
Qed.
