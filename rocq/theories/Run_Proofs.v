(* Running totals: both kinds of loop give the fold of every prefix. *)
From Coq Require Import SpecFloat Permutation.
From Verif Require Import Base Lists Int_Model Int_Proofs F64_Model Arr_Spec Arr_Model Arr_Wf Arr_Proofs Copy_Model Copy_Proofs Idx_Assign Elem_Model Elem_Proofs Rng_Model Red_Spec Red_Model Red_Proofs Red_Scan Promo_Spec Promo_Model Promo_Proofs SF_Proofs SF_Arith Cast_Spec Cast_Model Cast_SF Cast_Proofs Cast_Laws Close_Proofs Bitw_Spec Bitw_Model Bitw_Proofs Rnd_Spec Rnd_Model Rnd_Proofs Ari_Spec SF_Round Ari_Model Ari_Proofs Cpx_Spec Cpx_Model Cpx_Proofs Fred_Spec Fred_Model Fred_Proofs Run_Spec Run_Model.
Local Open Scope nat_scope.

Definition uncontig (a : arr) : arr := mkArr (a_off a) (a_shape a) (a_strides a) (a_item a) false (a_f a).
Lemma uncontig_wf {V} (buf : list V) a : wf buf a -> wf buf (uncontig a).
Proof. intros (H1 & H2 & H3 & H4 & H5 & H6 & H7). do 5 (split; [assumption|]). split; [discriminate|exact H7]. Qed.
Lemma scan_flat_is {T} init comb (buf : list T) a : scan_flat init comb buf a = cumulative_flat init comb buf (uncontig a).
Proof. reflexivity. Qed.
Lemma scan_axis_is {T} init comb zero (buf : list T) a axis n : wf buf a -> nth_error (a_shape a) axis = Some n ->
  scan_axis init comb zero buf a axis = cumulative_axis init comb buf zero (uncontig a) axis.
Proof.
  intros W Hn. destruct (strides_at buf a axis n W Hn) as [st Hs]. pose proof W as (_ & _ & _ & HL & _).
  unfold scan_axis, cumulative_axis. cbn [uncontig a_shape a_strides a_item a_c]. change (size (uncontig a)) with (size a).
  destruct (Nat.eqb_spec (size a) 0) as [H0|H0]; [reflexivity|].
  rewrite (at_ok _ _ _ Hn). cbn [bind]. rewrite (at_ok _ _ _ Hs). cbn [bind]. rewrite andb_false_r.
  assert (HPR : size a = n * prod (remove_at axis (a_shape a))) by (apply prod_remove_at; exact Hn).
  assert (Hp : 0 < n) by (destruct n; simpl in HPR; lia).
  fold (reduced_shape axis (a_shape a)). set (osh := reduced_shape axis (a_shape a)).
  assert (size a / n = prod osh) as ->.
  { rewrite HPR, Nat.mul_comm, Nat.div_mul by lia. unfold osh, reduced_shape. destruct (remove_at axis (a_shape a)); reflexivity. }
  rewrite odometer_all.
  match goal with |- bind (mapM ?f _) _ = bind (bind (mapM ?g _) _) _ => rewrite (mapM_ext f g (all_idx osh)); [destruct (mapM g (all_idx osh)); reflexivity|] end. intros oi Hoi. cbv zeta. apply in_all_idx in Hoi.
  destruct (outer_of_inb axis (a_shape a) n oi Hn Hoi) as [Ho _].
  replace (mapM (fun j => read buf a (byte_offset_for a (firstn (length (a_shape a)) (insert_at axis j oi)))) (seq 0 n))
    with (read_run buf (uncontig a) (dot oi (remove_at axis (a_strides a))) st n); [reflexivity|].
  unfold read_run. apply mapM_ext. intros j Hj. unfold read. cbn [uncontig a_item a_off]. f_equal. unfold byte_offset_for. f_equal. f_equal.
  assert (DD : dot oi (remove_at axis (a_strides a)) = dot (outer_of (a_shape a) oi) (remove_at axis (a_strides a)) /\
               firstn (length (a_shape a)) (insert_at axis j oi) = insert_at axis j (outer_of (a_shape a) oi)).
  { destruct (a_shape a) as [|x [|y sh]] eqn:ES.
    - destruct axis; discriminate.
    - assert (axis = 0) as -> by (destruct axis as [|[|?]]; [reflexivity|discriminate..]).
      destruct (a_strides a) as [|? [|]]; try discriminate HL. cbn [remove_at outer_of insert_at]. split; [destruct oi; reflexivity|]. cbn. reflexivity.
    - split; [reflexivity|]. cbn [outer_of] in *. apply firstn_all2.
      assert (inb (insert_at axis j oi) (x :: y :: sh)) as I by (apply (lane_inb _ _ _ _ n); [exact Hn|exact Ho|apply in_seq in Hj; lia]). apply inb_length in I. lia. }
  destruct DD as [-> ->]. symmetry. apply (lane_dot a axis _ j st n); assumption.
Qed.

(* every entry of z is Q of the elements of x up to its place: in index order, or along the axis *)
Definition running (Q : list scalar -> scalar -> Prop) (x : narr) (axis : option nat) (z : narr) : Prop :=
  n_kind z = n_kind x /\
  match axis with
  | None => exists vals, elems (n_buf x) (n_arr x) = map Some vals /\ shape_of z = [length vals] /\
      forall i, i < length vals -> exists r, item_at z [i] = Some r /\ Q (firstn (S i) vals) r
  | Some ax => shape_of z = shape_of x /\
      forall idx, inb idx (shape_of x) -> exists lv r,
        lane (n_buf x) (n_arr x) ax (remove_at ax idx) = map Some lv /\ item_at z idx = Some r /\ Q (firstn (S (nth ax idx 0)) lv) r
  end.
Lemma running_impl (Q Q' : list scalar -> scalar -> Prop) x axis z : good x ->
  (forall l r, Forall (element (n_kind x)) l -> Q l r -> Q' l r) -> running Q x axis z -> running Q' x axis z.
Proof.
  intros G H [K R]. split; [exact K|]. destruct axis as [ax|].
  - destruct R as [HS R]. split; [exact HS|]. intros idx I. destruct (R idx I) as (lv & r & E & ER & HQ). exists lv, r. split; [exact E|]. split; [exact ER|]. apply H; [|exact HQ].
    apply Forall_forall. intros v Hv. assert (In v lv) as HI by (rewrite <- (firstn_skipn (S (nth ax idx 0)) lv); apply in_or_app; left; exact Hv).
    assert (In (Some v) (lane (n_buf x) (n_arr x) ax (remove_at ax idx))) as HL by (rewrite E; apply in_map, HI). unfold lane in HL. apply in_map_iff in HL as (j & EJ & _). exact (good_element x _ v G EJ).
  - destruct R as (vals & E & HS & R). exists vals. split; [exact E|]. split; [exact HS|]. intros i Hi. destruct (R i Hi) as (r & ER & HQ). exists r. split; [exact ER|]. apply H; [|exact HQ].
    apply Forall_forall. intros v Hv. assert (In v vals) as HI by (rewrite <- (firstn_skipn (S i) vals); apply in_or_app; left; exact Hv).
    pose proof (vals_elements x vals G E) as FE. rewrite Forall_forall in FE. apply FE, HI.
Qed.

Lemma firstn_map' {A B} (g : A -> B) n l : firstn n (map g l) = map g (firstn n l).
Proof. revert l; induction n as [|n IH]; intros [|v l]; cbn; f_equal; auto. Qed.
Definition axis_ok (x : narr) (axis : option nat) : Prop := match axis with None => True | Some ax => ax < length (shape_of x) end.
Lemma scan_running {T} typed (g : scalar -> T) h init comb zero x axis : good x -> axis_ok x axis ->
  exists z, scan_with typed g h init comb zero x axis = Ok z /\ running (fun l r => r = h (fold_left comb (map g l) init)) x axis z /\
    length (n_buf z) = size (n_arr x) /\ (prod (shape_of z) = size (n_arr x)) /\ n_arr z = fresh (shape_of z) (itemsize (n_kind x)).
Proof.
  intros (N & W & _) HA. pose proof (wf_map g _ _ W) as W'. unfold scan_with. destruct axis as [ax|]; cbn [axis_ok] in HA.
  - unfold shape_of in HA. destruct (nth_error (a_shape (n_arr x)) ax) as [n|] eqn:Hn; [|apply nth_error_None in Hn; lia].
    set (a' := if typed then n_arr x else uncontig (n_arr x)).
    assert (W'' : wf (map g (n_buf x)) a') by (unfold a'; destruct typed; [exact W'|apply uncontig_wf, W']).
    assert (S' : a_shape a' = a_shape (n_arr x)) by (unfold a'; destruct typed; reflexivity).
    assert ((if typed then cumulative_axis init comb (map g (n_buf x)) zero (n_arr x) ax else scan_axis init comb zero (map g (n_buf x)) (n_arr x) ax)
            = cumulative_axis init comb (map g (n_buf x)) zero a' ax) as -> by (unfold a'; destruct typed; [reflexivity|apply (scan_axis_is init comb zero _ _ ax n W' Hn)]).
    destruct (cumulative_axis_spec init comb zero (map g (n_buf x)) a' ax n W'' ltac:(rewrite S'; exact Hn)) as (out & E & L & HO). rewrite E. cbn [bind].
    unfold size in L. rewrite S' in *. eexists. split; [reflexivity|]. split; [|split; [cbn [n_buf]; rewrite map_length; exact L|split; reflexivity]].
    split; [reflexivity|]. split; [reflexivity|]. intros idx I. unfold shape_of in I.
    destruct (inb_split ax _ n idx Hn I) as (j & oi & Ei & Hj & Ho & Ej & Er).
    destruct (lane_vals (n_buf x) (n_arr x) ax oi n W Hn Ho) as (lv & EL & _). rewrite Er. exists lv, (h (fold_left comb (map g (firstn (S (nth ax idx 0)) lv)) init)).
    split; [exact EL|]. split; [|reflexivity]. specialize (HO idx (map g lv) I).
    assert (lane (map g (n_buf x)) a' ax (remove_at ax idx) = map Some (map g lv)) as EL'.
    { rewrite Er. rewrite <- (lane_map g _ _ _ _ _ EL). unfold a'. destruct typed; reflexivity. }
    specialize (HO EL'). rewrite fresh_get in HO by apply W''. unfold item_at. cbn [n_buf n_arr]. rewrite fresh_get by (apply item_pos, N).
    rewrite nth_error_map', HO. cbn [option_map]. rewrite firstn_map'. reflexivity.
  - destruct (wf_elems _ _ W) as (vals & E & LV). pose proof (elems_map g _ _ _ E) as E'.
    set (a' := if typed then n_arr x else uncontig (n_arr x)).
    assert (W'' : wf (map g (n_buf x)) a') by (unfold a'; destruct typed; [exact W'|apply uncontig_wf, W']).
    assert (E'' : elems (map g (n_buf x)) a' = map Some (map g vals)) by (unfold a'; destruct typed; exact E').
    assert ((if typed then cumulative_flat init comb (map g (n_buf x)) (n_arr x) else scan_flat init comb (map g (n_buf x)) (n_arr x))
            = cumulative_flat init comb (map g (n_buf x)) a') as -> by (unfold a'; destruct typed; reflexivity).
    rewrite (cumulative_flat_spec init comb _ a' _ W'' E''). cbn [bind]. rewrite map_length.
    assert (LV' : length vals = size (n_arr x)).
    { pose proof (f_equal (@length _) E) as EL. unfold elems in EL. rewrite !map_length, all_idx_length in EL. symmetry. exact EL. }
    eexists. split; [reflexivity|]. split; [|split; [cbn [n_buf]; unfold cumulative; rewrite map_length, cumulative_from_length, map_length; exact LV'|split; [cbn; lia|reflexivity]]].
    split; [reflexivity|]. exists vals. split; [exact E|]. split; [reflexivity|]. intros i Hi. eexists. split; [|reflexivity].
    unfold item_at. cbn [n_buf n_arr]. rewrite fresh_get by (apply item_pos, N). replace (rank [length vals] [i]) with i by (cbn; lia).
    rewrite nth_error_map', cumulative_nth by (rewrite map_length; exact Hi). cbn [option_map]. rewrite firstn_map'. reflexivity.
Qed.

Lemma running_good Q x axis z : good x -> running Q x axis z -> length (n_buf z) = size (n_arr x) -> prod (shape_of z) = size (n_arr x) ->
  n_arr z = fresh (shape_of z) (itemsize (n_kind x)) -> (forall l r, Forall (element (n_kind x)) l -> Q l r -> element (n_kind x) r) -> good z.
Proof.
  intros G R L P A H. pose proof G as (N & W & F & B). apply (running_impl Q (fun _ r => element (n_kind x) r) x axis z G H) in R. destruct R as [K R].
  assert (HI : forall idx, inb idx (shape_of z) -> exists r, item_at z idx = Some r /\ element (n_kind x) r).
  { intros idx I. destruct axis as [ax|].
    - destruct R as [SZ R]. rewrite SZ in I. destruct (R idx I) as (lv & r & _ & E & Q'). exists r. auto.
    - destruct R as (vals & _ & SZ & R). rewrite SZ in I. destruct idx as [|i [|]]; [inversion I| |inversion I as [|? ? ? ? ? I']; inversion I'].
      inversion I as [|? ? ? ? Hi _]; subst. destruct (R i Hi) as (r & E & Q'). exists r. auto. }
  clear R. assert (HB16 : (itemsize (n_kind x) <= 16)%Z) by (clear - N; destruct (n_kind x); try discriminate N; cbn; lia). pose proof (item_pos _ N) as HP.
  split; [rewrite K; exact N|]. rewrite K. split; [rewrite A; apply fresh_wf; [exact HP| |lia]; rewrite L; unfold size; nia|]. split.
  - apply Forall_forall. intros v Hv. apply In_nth_error in Hv as [k Hk]. assert (k < prod (shape_of z)) as Lk by (rewrite P, <- L; apply nth_error_Some; congruence).
    assert (inb (unrank (shape_of z) k) (shape_of z)) as I by (apply unrank_inb; exact Lk).
    destruct (HI _ I) as (r & E & ER). unfold item_at in E. rewrite A, fresh_get, rank_unrank in E by assumption. congruence.
  - change (a_shape (n_arr z)) with (shape_of z). rewrite P. exact B.
Qed.

(* ---- in f64 ------------------------------------------------------------------ *)
Definition inv (k : kind) (op : cum) (U : Z) (l : list ext) (r : ext) : Prop := computable op (fst (Cast_Spec.format k)) U l -> r = Fin (result op l).
Definition red_for (op : cum) : red := match op with CumSum => RSum | CumProd => RProd end.
Lemma start_inv k op U : float_kind k -> valid_in k (fred_init k (red_for op)) /\ inv k op U [] (float_value (fred_init k (red_for op))).
Proof. intros [-> |[-> | ->]]; destruct op; split; try (vm_compute; reflexivity); intros _; vm_compute; reflexivity. Qed.
Lemma step_stable k op U : float_kind k -> unit_of k U -> stable k (inv k op U) (fred_comb k (red_for op)).
Proof. intros K HU. destruct op; [exact (sum_stable k U K HU)|exact (prod_stable k K)]. Qed.
Lemma nan_step_stable k op U : float_kind k -> unit_of k U -> stable k (skip (inv k op U)) (nan_comb k (red_for op)).
Proof. intros K HU. destruct op; [exact (nan_sum_stable k U K HU)|exact (nan_prod_stable k K)]. Qed.
Lemma unit_one k : float_kind k -> unit_of k one.
Proof. intros K. exists 0%Z. split; [destruct K as [-> |[-> | ->]]; cbn; lia|reflexivity]. Qed.
Lemma f64_valid k l : real k = true -> Forall (element k) l -> Forall (valid_in Float64) (map as_f64 l).
Proof. intros R F. apply Forall_forall. intros y Hy. apply in_map_iff in Hy as (v & <- & Hv). rewrite Forall_forall in F. exact (proj2 (as_f64_rounded k v R (F v Hv))). Qed.
Lemma f64_values k l : real k = true -> Forall (element k) l -> Forall fits l -> map float_value (map as_f64 l) = map real_value l.
Proof.
  intros R F HF. rewrite map_map. apply map_ext_in. intros v Hv. rewrite Forall_forall in F, HF. exact (proj1 (as_f64_value k v R (F v Hv) (HF v Hv))).
Qed.
Lemma write_real k acc z : real k = true -> valid_binary 53 1024 acc = true -> float_value acc = Fin z -> holds k (z, 0)%Z -> real_value (write_f64 k acc) = Fin z.
Proof.
  intros R V E H. destruct (write_exact k _ (real_numeric k R) V) as [C _]; [rewrite E; apply holds_fin; [apply real_numeric; exact R|exact H]|].
  unfold real_value. rewrite C. exact E.
Qed.
(* the total of l, NaN passed over or not, written back *)
Definition exact_f64 (sk : bool) (k : kind) (op : cum) (l : list scalar) (r : scalar) : Prop :=
  let nums := if sk then Fred_Spec.numbers (map real_value l) else map real_value l in
  forall U, unit_of Float64 U -> Forall fits l -> computable op 53 U nums -> holds k (result op nums, 0)%Z -> real_value r = Fin (result op nums).
Lemma f64_exact (sk : bool) k op l : real k = true -> Forall (element k) l ->
  let acc := fold_left (if sk then fun a v => if is_nan v then a else f64_step op a v else f64_step op) (map as_f64 l) (f64_start op) in
  element k (write_f64 k acc) /\ exact_f64 sk k op l (write_f64 k acc).
Proof.
  intros R F acc. pose proof (f64_valid k l R F) as FV. pose proof f64_kind as K6.
  assert (HS : f64_start op = fred_init Float64 (red_for op)) by (destruct op; reflexivity).
  assert (HA : forall U, unit_of Float64 U -> valid_in Float64 acc /\
    (if sk then skip (inv Float64 op U) (map float_value (map as_f64 l)) (float_value acc) else inv Float64 op U (map float_value (map as_f64 l)) (float_value acc))).
  { intros U HU. destruct (start_inv Float64 op U K6) as [V0 I0]. unfold acc. rewrite HS. destruct sk.
    - replace (fun a v => if is_nan v then a else f64_step op a v) with (nan_comb Float64 (red_for op)) by (destruct op; reflexivity).
      apply inv_fold; [exact V0|exact I0|apply nan_step_stable; assumption|exact FV].
    - replace (f64_step op) with (fred_comb Float64 (red_for op)) by (destruct op; reflexivity).
      apply inv_fold; [exact V0|exact I0|apply step_stable; assumption|exact FV]. }
  split; [apply write_element; [exact R|]; exact (proj1 (HA one (unit_one Float64 K6)))|].
  unfold exact_f64. intros U HU FF HC HH. destruct (HA U HU) as [V I]. rewrite (f64_values k l R F FF) in I.
  apply write_real; [exact R|exact V| |exact HH]. destruct sk; apply I; exact HC.
Qed.
Lemma cum_f64_spec (sk : bool) op x axis : good x -> real (n_kind x) = true -> axis_ok x axis ->
  exists z, scan_with false as_f64 (write_f64 (n_kind x)) (f64_start op) (if sk then fun acc v => if is_nan v then acc else f64_step op acc v else f64_step op) (S754_zero false) x axis = Ok z /\
    good z /\ running (exact_f64 sk (n_kind x) op) x axis z.
Proof.
  intros G R HA. edestruct (@scan_running spec_float) as (z & E & HR & L & P & A); [exact G|exact HA|]. exists z. split; [exact E|]. split.
  - eapply running_good; try eassumption. intros l r F ->. apply f64_exact; assumption.
  - eapply running_impl; [exact G| |exact HR]. intros l r F ->. apply f64_exact; assumption.
Qed.

(* ---- floats in their own format ------------------------------------------------- *)
Definition exact_float (k : kind) (op : cum) (l : list scalar) (r : scalar) : Prop :=
  (forall U, unit_of k U -> computable op (fst (Cast_Spec.format k)) U (map real_value l) -> real_value r = Fin (result op (map real_value l))) /\
  (In NaN (map real_value l) -> real_value r = NaN).
Lemma float_exact k op l : float_kind k -> Forall (element k) l ->
  let r := SFlt (fold_left (fred_comb k (red_for op)) (map flt l) (fred_init k (red_for op))) in element k r /\ exact_float k op l r.
Proof.
  intros K F r. destruct (floats_flt k l K F) as [FV FE]. destruct (start_inv k op one K) as [V0 _].
  assert (HN : valid_in k (fred_init k (red_for op)) -> In NaN (map float_value (map flt l)) -> float_value (fold_left (fred_comb k (red_for op)) (map flt l) (fred_init k (red_for op))) = NaN).
  { intros _. apply (inv_fold k nan_inv _ _ V0); [intros []| |exact FV]. destruct op; apply nan_stable; auto. }
  split; [|split].
  - apply float_element; [exact K|]. apply (inv_fold k (inv k op one) _ _ V0); [apply start_inv; exact K|apply step_stable; [exact K|apply unit_one, K]|exact FV].
  - intros U HU HC. destruct (inv_fold k (inv k op U) _ (fred_comb k (red_for op)) V0 (proj2 (start_inv k op U K)) (step_stable k op U K HU) _ FV) as [_ I]. rewrite FE in I. exact (I HC).
  - intros HI. rewrite <- FE in HI. exact (HN V0 HI).
Qed.
Lemma cum_float_spec op x axis : good x -> float_kind (n_kind x) -> axis_ok x axis ->
  exists z, cumulative_total op x axis = Ok z /\ good z /\ running (exact_float (n_kind x) op) x axis z.
Proof.
  intros G K HA. unfold cumulative_total.
  match goal with |- context [scan_with true flt SFlt ?i ?c ?o x axis] => set (b := scan_with true flt SFlt i c o x axis) end.
  match goal with |- exists z, ?m = Ok z /\ _ => assert (m = b) as -> by (destruct K as [-> |[-> | ->]]; reflexivity) end. unfold b.
  edestruct (@scan_running spec_float) as (z & E & HR & L & P & A); [exact G|exact HA|]. exists z. split; [exact E|]. split.
  - eapply running_good; try eassumption. intros l r F ->. destruct op; [exact (proj1 (float_exact _ CumSum l K F))|exact (proj1 (float_exact _ CumProd l K F))].
  - eapply running_impl; [exact G| |exact HR]. intros l r F ->. destruct op; [exact (proj2 (float_exact _ CumSum l K F))|exact (proj2 (float_exact _ CumProd l K F))].
Qed.

(* ---- integers, wrapping around ----------------------------------------------------- *)
Local Open Scope Z_scope.
(* an integer of the dtype congruent to the sum or product *)
Definition exact_int (k : kind) (op : cum) (l : list scalar) (r : scalar) : Prop :=
  exists zs z, l = map SInt zs /\ r = SInt z /\ fst (int_range k) <= z <= snd (int_range k) /\
    (z - match op with CumSum => zsum zs | CumProd => zprod zs end) mod 2 ^ width k = 0.
Lemma int_items k l : is_integer k = true -> Forall (element k) l -> l = map SInt (map int_item l).
Proof.
  intros K F. rewrite map_map. rewrite <- (map_id l) at 1. apply map_ext_in. intros v Hv. rewrite Forall_forall in F. specialize (F v Hv).
  destruct k; try discriminate K; destruct v; try contradiction; reflexivity.
Qed.
Lemma cum_int_spec op x axis : good x -> is_integer (n_kind x) = true -> n_kind x <> Int8 -> axis_ok x axis ->
  exists z, cumulative_total op x axis = Ok z /\ good z /\ running (exact_int (n_kind x) op) x axis z.
Proof.
  intros G K K8 HA. destruct (int_of_integer _ K) as (t & ET & HT & EB & _ & EL & EH).
  set (r := match op with CumSum => Red_Model.RSum | CumProd => Red_Model.RProd end).
  assert (cumulative_total op x axis = scan_with true int_item SInt (int_red_init t r) (int_red_comb t r) 0 x axis) as ->.
  { unfold cumulative_total. unfold r. destruct (n_kind x); try discriminate K; try congruence; rewrite ET; reflexivity. }
  edestruct (@scan_running Z) as (z & E & HR & L & P & A); [exact G|exact HA|]. exists z. split; [exact E|].
  assert (HE : forall l v, Forall (element (n_kind x)) l -> v = SInt (fold_left (int_red_comb t r) (map int_item l) (int_red_init t r)) -> exact_int (n_kind x) op l v).
  { intros l v F ->. pose proof (int_items _ l K F) as EI. exists (map int_item l). eexists. split; [exact EI|]. split; [reflexivity|].
    assert (R0 : forall c, 0 <= c <= 1 -> representable t c) by (intros c Hc; unfold representable; rewrite EL, EH; clear - K Hc; destruct (n_kind x); try discriminate K; cbn; lia).
    rewrite <- EL, <- EH, <- EB. unfold r. destruct op.
    - rewrite fold_sum by (exact HT || (apply R0; cbn; lia)). cbn [int_red_init]. rewrite Z.add_0_l. split; [apply wrap_rep, HT|apply wrap_cong, HT].
    - rewrite fold_prod by (exact HT || (apply R0; cbn; lia)). cbn [int_red_init]. rewrite Z.mul_1_l. split; [apply wrap_rep, HT|apply wrap_cong, HT]. }
  split.
  - eapply running_good; try eassumption. intros l v F Q. destruct (HE l v F Q) as (zs & c & _ & -> & HC & _). apply int_element; auto.
  - eapply running_impl; [exact G| |exact HR]. exact HE.
Qed.

(* ---- sums of complex numbers, part by part ------------------------------------------ *)
Lemma sum_parts p m l : forall a b, fold_left (red_comb p m Cpx_Model.RSum) l (a, b) = (fold_left (SFadd p m) (map fst l) a, fold_left (SFadd p m) (map snd l) b).
Proof. induction l as [|v l IH]; intros a b; cbn [fold_left map]; [reflexivity|]. rewrite <- IH. reflexivity. Qed.
(* the float array of one part *)
Definition exact_part (k : kind) (f : number -> ext) (l : list scalar) (r : scalar) : Prop :=
  let nums := map (fun v => f (value v)) l in
  (forall U, unit_of (part_kind k) U -> summable (fst (Cast_Spec.format (part_kind k))) U nums -> f (value r) = Fin (total nums)) /\
  (In NaN nums -> f (value r) = NaN).
Lemma part_exact k l (g : cpx -> spec_float) : is_complex_kind k = true -> Forall (fun v => valid_in k (g (scalar_cpx v))) l ->
  exact_float (part_kind k) CumSum (map (fun v => SFlt (g (scalar_cpx v))) l)
    (SFlt (fold_left (SFadd (fst (part k)) (snd (part k))) (map g (map scalar_cpx l)) (S754_zero false))) /\
  valid_in k (fold_left (SFadd (fst (part k)) (snd (part k))) (map g (map scalar_cpx l)) (S754_zero false)).
Proof.
  intros K F. assert (PK : float_kind (part_kind k)) by (destruct k; try discriminate K; unfold float_kind; cbn; auto).
  assert (HV : forall x, valid_in k x <-> element (part_kind k) (SFlt x)) by (intros x; destruct k; try discriminate K; reflexivity).
  assert (FE : Forall (element (part_kind k)) (map (fun v => SFlt (g (scalar_cpx v))) l)).
  { apply Forall_forall. intros w Hw. apply in_map_iff in Hw as (v & <- & Hv). apply HV. rewrite Forall_forall in F. apply F, Hv. }
  destruct (float_exact (part_kind k) CumSum _ PK FE) as [EE EX].
  assert (fold_left (fred_comb (part_kind k) (red_for CumSum)) (map flt (map (fun v => SFlt (g (scalar_cpx v))) l)) (fred_init (part_kind k) (red_for CumSum))
          = fold_left (SFadd (fst (part k)) (snd (part k))) (map g (map scalar_cpx l)) (S754_zero false)) as Q.
  { rewrite !map_map. destruct k; try discriminate K; reflexivity. }
  cbv zeta in EE, EX. rewrite Q in EE, EX. split; [exact EX|apply HV, EE].
Qed.
Lemma cum_complex_spec x axis : good x -> is_complex_kind (n_kind x) = true -> axis_ok x axis ->
  exists z, cumulative_total CumSum x axis = Ok z /\ good z /\ running (fun l r => exact_part (n_kind x) fst l r /\ exact_part (n_kind x) snd l r) x axis z.
Proof.
  intros G K HA. set (k := n_kind x) in *.
  assert (cumulative_total CumSum x axis = scan_with true scalar_cpx (fun c => SCpx (fst c) (snd c)) (red_init (fst (part k)) (snd (part k)) Cpx_Model.RSum)
            (red_comb (fst (part k)) (snd (part k)) Cpx_Model.RSum) (zero, zero) x axis) as ->.
  { unfold cumulative_total. fold k. clear - K. clearbody k. destruct k; try discriminate K; reflexivity. }
  edestruct (@scan_running cpx) as (z & E & HR & L & P & A); [exact G|exact HA|]. exists z. split; [exact E|].
  assert (HE : forall l v, Forall (element k) l -> v = SCpx (fst (fold_left (red_comb (fst (part k)) (snd (part k)) Cpx_Model.RSum) (map scalar_cpx l) (red_init (fst (part k)) (snd (part k)) Cpx_Model.RSum)))
      (snd (fold_left (red_comb (fst (part k)) (snd (part k)) Cpx_Model.RSum) (map scalar_cpx l) (red_init (fst (part k)) (snd (part k)) Cpx_Model.RSum))) ->
      element k v /\ exact_part k fst l v /\ exact_part k snd l v).
  { intros l v F ->. cbn [red_init]. rewrite sum_parts. cbn [fst snd]. rewrite Forall_forall in F.
    assert (FP : Forall (fun v => valid_in k (fst (scalar_cpx v)) /\ valid_in k (snd (scalar_cpx v)) /\ value v = (float_value (fst (scalar_cpx v)), float_value (snd (scalar_cpx v)))) l).
    { apply Forall_forall. intros v Hv. destruct (element_cpx k v K (F v Hv)) as (a & b & -> & VA & VB). auto. }
    rewrite Forall_forall in FP.
    destruct (part_exact k l fst K) as [E1 V1]; [apply Forall_forall; intros v Hv; apply (FP v Hv)|].
    destruct (part_exact k l snd K) as [E2 V2]; [apply Forall_forall; intros v Hv; apply (FP v Hv)|].
    split; [apply cpx_element; assumption|].
    assert (M1 : map (fun v => fst (value v)) l = map real_value (map (fun v => SFlt (fst (scalar_cpx v))) l)).
    { rewrite map_map. apply map_ext_in. intros v Hv. destruct (FP v Hv) as (_ & _ & ->). reflexivity. }
    assert (M2 : map (fun v => snd (value v)) l = map real_value (map (fun v => SFlt (snd (scalar_cpx v))) l)).
    { rewrite map_map. apply map_ext_in. intros v Hv. destruct (FP v Hv) as (_ & _ & ->). reflexivity. }
    unfold exact_part. rewrite M1, M2. split; [exact E1|exact E2]. }
  split.
  - eapply running_good; try eassumption. intros l v F Q. exact (proj1 (HE l v F Q)).
  - eapply running_impl; [exact G| |exact HR]. intros l v F Q. exact (proj2 (HE l v F Q)).
Qed.
