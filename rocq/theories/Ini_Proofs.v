From Coq Require Import SpecFloat.
From Verif Require Import Base Lists Int_Model Int_Proofs F64_Model Arr_Spec Arr_Model Arr_Wf Arr_Proofs Copy_Model Copy_Proofs Idx_Proofs Idx_Assign Elem_Model Elem_Proofs Rng_Model Red_Spec Red_Model Red_Proofs Red_Scan Promo_Spec Promo_Model Promo_Proofs SF_Proofs SF_Arith Cast_Spec Cast_Model Cast_SF Cast_Proofs Cast_Laws Close_Proofs Bitw_Spec Bitw_Model Bitw_Proofs Rnd_Spec Rnd_Model Rnd_Proofs Ari_Spec SF_Round Ari_Model Ari_Proofs Cpx_Model Fred_Spec Fred_Model Fred_Proofs Run_Spec Run_Model Run_Proofs Ini_Model.
Local Open Scope nat_scope.

Lemma place_rank sh idx : place sh idx = rank sh idx.
Proof. unfold place. rewrite dot_c_strides. lia. Qed.
Lemma upd_insert {A} axis (n m : A) sh : nth_error sh axis = Some n -> upd sh axis m = insert_at axis m (remove_at axis sh).
Proof. revert axis; induction sh as [|s sh IH]; intros [|axis] H; try discriminate H; cbn; [reflexivity|]. f_equal. apply IH, H. Qed.
Lemma remove_upd {A} axis (m : A) sh : remove_at axis (upd sh axis m) = remove_at axis sh.
Proof. revert axis; induction sh as [|s sh IH]; intros [|axis]; cbn; f_equal; auto. Qed.

Lemma nth_firstn {A} (l : list A) n k : k < n -> nth_error (firstn n l) k = nth_error l k.
Proof. revert n k; induction l as [|x l IH]; intros [|n] [|k] H; cbn; try reflexivity; try lia. apply IH. lia. Qed.
Lemma nth_skipn {A} (l : list A) n k : nth_error (skipn n l) k = nth_error l (n + k).
Proof. revert n; induction l as [|x l IH]; intros [|n]; cbn; try reflexivity; [destruct k; reflexivity|apply IH]. Qed.

Lemma upd_last {A} (l : list A) n m : upd (l ++ [n]) (length l) m = l ++ [m].
Proof. induction l as [|x l IH]; cbn; [reflexivity|]. f_equal. exact IH. Qed.

Section Lanes.
Context {V : Type}.
Variables (rd : V -> V) (ident zero : V) (data : list V) (sh : list nat) (axis n : nat).
Hypothesis Hn : nth_error sh axis = Some n.
Hypothesis HD : length data = prod sh.
Let nsh := upd sh axis (n + 1).
(* what belongs at an index of the result *)
Definition shifted (idx : list nat) : option V :=
  match nth axis idx 0 with O => Some ident | S j => option_map rd (nth_error data (rank sh (upd idx axis j))) end.
Lemma axis_in : axis < length sh. Proof. apply nth_error_Some. congruence. Qed.
Lemma upd_insert_at j i oi : axis <= length oi -> upd (insert_at axis i oi) axis j = insert_at axis j oi :> list nat.
Proof.
  clear. revert axis; induction oi as [|x oi IH]; intros [|axis] H; cbn in *; try reflexivity; try lia. f_equal. apply IH. lia.
Qed.
Lemma prepend_lanes_spec : 0 < prod (remove_at axis sh) ->
  exists out, prepend_lanes rd ident zero data sh axis n = Ok out /\ length out = prod nsh /\ forall idx, inb idx nsh -> nth_error out (rank nsh idx) = shifted idx.
Proof.
  intros HP. unfold prepend_lanes. fold nsh. set (osh := remove_at axis sh) in *. rewrite Nat.max_l by lia. rewrite odometer_all. pose proof axis_in as HA.
  assert (HO : forall oi, inb oi osh -> axis <= length oi) by (intros oi I; rewrite (inb_length _ _ I); unfold osh; rewrite remove_at_length by exact HA; lia).
  assert (HS : forall oi j, inb oi osh -> j < n -> inb (insert_at axis j oi) sh) by (intros; apply (lane_inb sh axis oi j n); assumption).
  assert (HR : forall oi j, inb oi osh -> j < n + 1 -> inb (insert_at axis j oi) nsh) by (intros oi j I Hj; unfold nsh; rewrite (upd_insert axis n) by exact Hn; apply inb_insert_at; assumption).
  destruct data as [|d0 data'] eqn:ED.
  - assert (n = 0) as N0. { cbn in HD. rewrite (prod_remove_at axis sh n Hn) in HD. fold osh in HD. nia. }
    set (wr := fun oi => [(rank nsh (insert_at axis 0 oi), ident)]).
    rewrite (mapM_total _ wr). 2: { intros oi _. rewrite N0. cbn. rewrite place_rank. reflexivity. }
    cbn [bind]. rewrite <- flat_map_concat_map.
    assert (HW : forall p v, In (p, v) (flat_map wr (all_idx osh)) <-> exists oi, inb oi osh /\ p = rank nsh (insert_at axis 0 oi) /\ v = ident).
    { intros p v. rewrite in_flat_map. split.
      - intros (oi & I & [E|[]]). injection E as <- <-. exists oi. rewrite in_all_idx in I. auto.
      - intros (oi & I & -> & ->). exists oi. rewrite in_all_idx. split; [exact I|left; reflexivity]. }
    destruct (write_all_spec (flat_map wr (all_idx osh)) (repeat zero (prod nsh))) as (out & EO & LO & HNO).
    { intros p v H. apply HW in H as (oi & I & -> & _). rewrite repeat_length. apply rank_lt, HR; [exact I|lia]. }
    exists out. rewrite EO. split; [reflexivity|]. split; [rewrite LO, repeat_length; reflexivity|]. intros idx I.
    assert (Hn' : nth_error nsh axis = Some (n + 1)) by (apply nth_error_upd_eq, HA).
    destruct (inb_split axis nsh (n + 1) idx Hn' I) as (j & oi & EI & Hj & Ho & Ej & Eo). assert (j = 0) as -> by lia. unfold shifted. rewrite Ej.
    unfold nsh in Ho. rewrite remove_upd in Ho. rewrite EI. apply HNO; [apply HW; exists oi; auto|]. intros v' H'. apply HW in H' as (? & _ & _ & ->). reflexivity.
  - rewrite <- ED in *. clear ED data'. set (lk := fun i => nth i data d0).
    assert (HL : forall i, inb i sh -> nth_error data (rank sh i) = Some (lk (rank sh i))) by (intros i I; apply nth_error_nth'; rewrite HD; apply rank_lt, I).
    set (wr := fun oi => (rank nsh (insert_at axis 0 oi), ident) :: map (fun j => (rank nsh (insert_at axis (j + 1) oi), rd (lk (rank sh (insert_at axis j oi))))) (seq 0 n)).
    rewrite (mapM_total _ wr).
    2: { intros oi I. apply in_all_idx in I. rewrite (mapM_total _ (fun j => lk (rank sh (insert_at axis j oi)))).
         - cbn [bind]. rewrite place_rank. unfold wr. do 2 f_equal. rewrite map_map. clear. generalize (seq 0 n). intros l. induction l as [|j l IH]; cbn; [reflexivity|]. rewrite place_rank. f_equal. exact IH.
         - intros j Hj. apply in_seq in Hj. rewrite place_rank, HL by (apply HS; [exact I|lia]). reflexivity. }
    cbn [bind]. rewrite <- flat_map_concat_map.
    set (val := fun oi j => match j with O => ident | S j' => rd (lk (rank sh (insert_at axis j' oi))) end).
    assert (HW : forall p v, In (p, v) (flat_map wr (all_idx osh)) <-> exists oi j, inb oi osh /\ j < n + 1 /\ p = rank nsh (insert_at axis j oi) /\ v = val oi j).
    { intros p v. rewrite in_flat_map. split.
      - intros (oi & I & [E|E]); apply in_all_idx in I.
        + injection E as <- <-. exists oi, 0. split; [exact I|]. split; [lia|]. split; reflexivity.
        + apply in_map_iff in E as (j & E & Hj). injection E as <- <-. apply in_seq in Hj. exists oi, (j + 1). split; [exact I|]. split; [lia|]. split; [reflexivity|]. rewrite Nat.add_1_r. reflexivity.
      - intros (oi & j & I & Hj & -> & ->). exists oi. rewrite in_all_idx. split; [exact I|]. destruct j as [|j]; [left; reflexivity|right]. apply in_map_iff. exists j. rewrite Nat.add_1_r. split; [reflexivity|apply in_seq; lia]. }
    destruct (write_all_spec (flat_map wr (all_idx osh)) (repeat zero (prod nsh))) as (out & EO & LO & HNO).
    { intros p v H. apply HW in H as (oi & j & I & Hj & -> & _). rewrite repeat_length. apply rank_lt, HR; assumption. }
    exists out. rewrite EO. split; [reflexivity|]. split; [rewrite LO, repeat_length; reflexivity|]. intros idx I.
    assert (Hn' : nth_error nsh axis = Some (n + 1)) by (apply nth_error_upd_eq, HA).
    destruct (inb_split axis nsh (n + 1) idx Hn' I) as (j & oi & EI & Hj & Ho & Ej & Eo). unfold nsh in Ho. rewrite remove_upd in Ho. fold osh in Ho.
    assert (shifted idx = Some (val oi j)) as ->.
    { unfold shifted. rewrite Ej. destruct j as [|j]; [reflexivity|]. rewrite EI, upd_insert_at by (apply HO, Ho). rewrite HL by (apply HS; [exact Ho|lia]). reflexivity. }
    apply HNO; [apply HW; exists oi, j; rewrite EI; auto|]. intros v' H'. apply HW in H' as (oi' & j' & Ho' & Hj' & ER & ->).
    assert (idx = insert_at axis j' oi') as EI' by (rewrite <- (unrank_rank nsh idx), ER by exact I; apply unrank_rank, HR; assumption).
    destruct (insert_at_parts axis j' oi' (HO _ Ho')) as [P1 P2]. rewrite <- EI' in P1, P2. rewrite Ej in P1. rewrite Eo in P2. subst; reflexivity.
Qed.
(* rows: the last axis, elements carried over unchanged *)
Lemma prepend_rows_spec : (forall v, rd v = v) -> axis = length sh - 1 ->
  exists out, prepend_rows ident data sh n = Ok out /\ length out = prod nsh /\ forall idx, inb idx nsh -> nth_error out (rank nsh idx) = shifted idx.
Proof.
  intros HRD HX. pose proof axis_in as HA. assert (ES : sh = removelast sh ++ [n]).
  { assert (sh <> []) as NE by (intros ->; destruct axis; discriminate Hn). rewrite (app_removelast_last 0 NE) at 1. f_equal. f_equal.
    rewrite (app_removelast_last 0 NE) in Hn. rewrite nth_error_app2 in Hn; rewrite removelast_firstn_len, firstn_length in *; [|lia]. replace (axis - Nat.min (Nat.pred (length sh)) (length sh)) with 0 in Hn by lia. cbn in Hn. congruence. }
  set (osh := removelast sh) in *.
  assert (EN : nsh = osh ++ [n + 1]).
  { unfold nsh. assert (length osh = axis) as LO by (unfold osh; rewrite removelast_firstn_len, firstn_length; lia). rewrite ES at 1. rewrite <- LO. apply upd_last. }
  assert (PS : prod sh = prod osh * n) by (rewrite ES, prod_app; cbn; lia). assert (PN : prod nsh = prod osh * (n + 1)) by (rewrite EN, prod_app; cbn; lia).
  set (row := fun i => ident :: firstn n (skipn (i * n) data)).
  assert (HRow : forall i, i < prod osh -> length (firstn n (skipn (i * n) data)) = n) by (intros i Hi; rewrite firstn_length, skipn_length, HD, PS; nia).
  unfold prepend_rows. fold osh. rewrite (mapM_total _ row).
  2: { intros i Hi. apply in_seq in Hi. assert (mapM (fun j => of_load (nth_error data (i * n + j))) (seq 0 n) = Ok (firstn n (skipn (i * n) data))) as ->; [|reflexivity].
       apply mapM_of_load. apply nth_error_ext. intros j. rewrite !nth_error_map'. destruct (Nat.lt_ge_cases j n) as [L|L].
       - rewrite nth_error_seq. destruct (Nat.ltb_spec j n); [|lia]. cbn [option_map]. rewrite nth_firstn by exact L. rewrite nth_skipn. destruct (nth_error data (i * n + j)) eqn:Q; [rewrite Nat.add_0_l; rewrite Q; reflexivity|]. apply nth_error_None in Q. rewrite HD, PS in Q. nia.
       - rewrite (proj2 (nth_error_None (seq 0 n) j)) by (rewrite seq_length; exact L). rewrite (proj2 (nth_error_None _ j)) by (rewrite HRow by lia; exact L). reflexivity. }
  cbn [bind]. eexists. split; [reflexivity|].
  assert (HLen : forall l, In l (map row (seq 0 (prod osh))) -> length l = n + 1).
  { intros l H. apply in_map_iff in H as (i & <- & Hi). apply in_seq in Hi. unfold row. cbn [length]. rewrite HRow by lia. lia. }
  split.
  { rewrite PN. clear - HLen. rewrite <- (seq_length (prod osh) 0) at 2. rewrite <- (map_length row). revert HLen. generalize (map row (seq 0 (prod osh))). intros L H. induction L as [|l L IH]; cbn; [reflexivity|]. rewrite app_length, IH by (intros; apply H; right; assumption). rewrite (H l) by (left; reflexivity). lia. }
  intros idx I. assert (Hn' : nth_error nsh axis = Some (n + 1)) by (apply nth_error_upd_eq, HA).
  assert (exists oi j, idx = oi ++ [j] /\ inb oi osh /\ j < n + 1) as (oi & j & -> & Ho & Hj).
  { rewrite EN in I. apply Forall2_app_inv_r in I as (oi & t & Ho & Ht & ->). destruct t as [|j [|? ?]]; [inversion Ht| |inversion Ht as [|? ? ? ? ? Ht']; inversion Ht'].
    exists oi, j. split; [reflexivity|]. split; [exact Ho|]. inversion Ht; assumption. }
  assert (LO : length oi = axis) by (rewrite (inb_length _ _ Ho); unfold osh; rewrite removelast_firstn_len, firstn_length; lia).
  rewrite EN, rank_app_single by (apply inb_length, Ho).
  pose proof (rank_lt osh oi Ho) as HRk.
  rewrite (nth_error_concat (n + 1)) by assumption. rewrite nth_error_map', nth_error_seq. destruct (Nat.ltb_spec (rank osh oi) (prod osh)); [|lia]. cbn [option_map]. rewrite Nat.add_0_l.
  assert (NJ : nth axis (oi ++ [j]) 0 = j) by (rewrite app_nth2 by lia; rewrite LO, Nat.sub_diag; reflexivity).
  unfold shifted. rewrite NJ. unfold row. destruct j as [|j]; [reflexivity|]. cbn [nth_error].
  assert (UJ : upd (oi ++ [S j]) axis j = oi ++ [j]) by (rewrite <- LO; apply upd_last).
  rewrite UJ. rewrite ES at 1. rewrite rank_app_single by (apply inb_length, Ho). rewrite nth_firstn by lia. rewrite nth_skipn.
  destruct (nth_error data (rank osh oi * n + j)); cbn [option_map]; [rewrite HRD|]; reflexivity.
Qed.
End Lanes.

(* ---- arrays -------------------------------------------------------------------- *)
(* the outer shape is not empty, or the rows of a typed array are used *)
Definition lanes_ok (x : narr) (axis : nat) : Prop :=
  0 < prod (remove_at axis (shape_of x)) \/ (typed_prepend (n_kind x) = true /\ axis = length (shape_of x) - 1).
(* the identity of the operation *)
Definition start (op : cum) : Z := match op with CumSum => 0 | CumProd => 1 end.
Lemma start_value k op : real k = true -> element k (write_f64 k (f64_start op)) /\ real_value (write_f64 k (f64_start op)) = Fin (start op * one).
Proof.
  intros R. assert (V : valid_binary 53 1024 (f64_start op) = true) by (destruct op; vm_compute; reflexivity).
  assert (E : float_value (f64_start op) = Fin (start op * one)) by (destruct op; vm_compute; reflexivity).
  assert (H : holds k (start op * one, 0)%Z).
  { destruct op; cbn [start]; (destruct k; try discriminate R; cbn [holds]; (split; [|reflexivity])); try (apply int_int; lia).
    1-3: exists 0%Z, 0%Z. 4-6: exists 1%Z, 0%Z. all: split; [lia|split; [vm_compute; split; discriminate|reflexivity]]. }
  destruct (write_exact k _ (real_numeric k R) V) as [C EL]; [rewrite E; apply holds_fin; [apply real_numeric, R|exact H]|].
  split; [exact EL|]. unfold real_value. rewrite C. exact E.
Qed.
Lemma prepend_spec op x axis n : good x -> real (n_kind x) = true -> n_arr x = fresh (shape_of x) (itemsize (n_kind x)) ->
  length (n_buf x) = prod (shape_of x) -> nth_error (shape_of x) axis = Some n -> lanes_ok x axis ->
  (Z.of_nat (prod (upd (shape_of x) axis (n + 1)%nat)) * 16 < 2 ^ 63)%Z ->
  exists z, prepend op x axis = Ok z /\ good z /\ n_kind z = n_kind x /\ shape_of z = upd (shape_of x) axis (n + 1) /\
    forall idx, inb idx (shape_of z) -> exists r, item_at z idx = Some r /\
      match nth axis idx 0 with
      | O => real_value r = Fin (start op * one)
      | S j => exists v, item_at x (upd idx axis j) = Some v /\ real_value r = real_value v
      end.
Proof.
  intros G R A L Hn HL HB. pose proof G as (N & W & F & _). set (k := n_kind x) in *. set (sh := shape_of x) in *.
  unfold prepend. change (a_shape (n_arr x)) with sh. fold k. rewrite (at_ok _ _ _ Hn). cbn [bind].
  assert (EC : a_c (n_arr x) = true) by (rewrite A; reflexivity). rewrite EC, andb_true_r.
  set (ident := write_f64 k (f64_start op)). set (zr := write_f64 k (S754_zero false)).
  set (rd := fun v : scalar => if typed_prepend k then v else write_f64 k (as_f64 v)).
  assert (HRD : forall v, element k v -> element k (rd v) /\ real_value (rd v) = real_value v).
  { intros v E. unfold rd. destruct (typed_prepend k) eqn:ET; [auto|].
    assert (wide_int k = false) as WI by (clear - ET R; clearbody k; destruct k; try discriminate R; try discriminate ET; reflexivity).
    destruct (cast_exact k k v R N E (narrow_fits k v R WI E) (element_holds k v N E)) as [CV CE]. unfold cast in *. split; [exact CE|]. unfold real_value. rewrite CV. reflexivity. }
  match goal with |- exists z, bind ?m _ = Ok z /\ _ =>
    assert (exists out, m = Ok out /\ length out = prod (upd sh axis (n + 1)) /\ forall idx, inb idx (upd sh axis (n + 1)) -> nth_error out (rank (upd sh axis (n + 1)) idx) = shifted rd ident (n_buf x) sh axis idx) as (out & EO & LO & HO) end.
  { destruct (typed_prepend k) eqn:ET.
    - destruct (Nat.eqb_spec axis (length sh - 1)) as [EX|EX].
      + apply prepend_rows_spec; try assumption. intros v. unfold rd. reflexivity.
      + destruct HL as [HP|[_ HX]]; [|contradiction]. apply (prepend_lanes_spec rd ident zr (n_buf x) sh axis n Hn L HP).
    - destruct HL as [HP|[HX _]]; [|fold k in HX; congruence]. apply (prepend_lanes_spec rd ident zr (n_buf x) sh axis n Hn L HP). }
  rewrite EO. cbn [bind]. eexists. split; [reflexivity|]. destruct (start_value k op R) as [SE SV]. fold ident in SE, SV.
  assert (HV : forall idx, inb idx (upd sh axis (n + 1)) -> exists r, nth_error out (rank (upd sh axis (n + 1)) idx) = Some r /\ element k r /\
     match nth axis idx 0 with O => real_value r = Fin (start op * one) | S j => exists v, item_at x (upd idx axis j) = Some v /\ real_value r = real_value v end).
  { intros idx I. rewrite (HO idx I). unfold shifted. destruct (nth axis idx 0) as [|j] eqn:EJ; [exists ident; auto|].
    assert (I' : inb (upd idx axis j) sh).
    { assert (HA : axis < length sh) by (apply nth_error_Some; congruence).
      assert (Hn' : nth_error (upd sh axis (n + 1)) axis = Some (n + 1)) by (apply nth_error_upd_eq, HA).
      destruct (inb_split axis _ (n + 1) idx Hn' I) as (j' & oi & EI & Hj & Ho & Ej & Eo). rewrite remove_upd in Ho. rewrite Ej in EJ. subst j'.
      rewrite EI, upd_insert_at by (rewrite (inb_length _ _ Ho), remove_at_length by exact HA; lia). apply (lane_inb sh axis oi j n); [exact Hn|exact Ho|lia]. }
    destruct (nth_error (n_buf x) (rank sh (upd idx axis j))) as [v|] eqn:EV.
    2: { apply nth_error_None in EV. pose proof (rank_lt _ _ I'). lia. }
    cbn [option_map]. rewrite Forall_forall in F. destruct (HRD v (F v (nth_error_In _ _ EV))) as [H1 H2]. exists (rd v). split; [reflexivity|]. split; [exact H1|].
    exists v. split; [|exact H2]. unfold item_at. rewrite A. rewrite fresh_get by (apply item_pos, N). exact EV. }
  split; [|split; [reflexivity|split; [reflexivity|]]].
  - assert (FO : Forall (element k) out).
    { apply Forall_forall. intros v Hv. apply In_nth_error in Hv as [i Hi]. assert (i < prod (upd sh axis (n + 1))) as Li by (rewrite <- LO; apply nth_error_Some; congruence).
      destruct (HV _ (unrank_inb _ _ Li)) as (r & E & ER & _). rewrite rank_unrank in E by exact Li. congruence. }
    split; [exact N|]. split; [|split; [exact FO|exact HB]]. cbn [n_buf n_arr n_kind].
    assert (itemsize k <= 16)%Z by (clear - N; clearbody k; destruct k; try discriminate N; cbn; lia). pose proof (item_pos k N). apply fresh_wf; [assumption| |exact LO]. rewrite LO. nia.
  - intros idx I. cbn [shape_of n_arr fresh a_shape] in I. destruct (HV idx I) as (r & E & _ & HR). exists r. split; [|exact HR].
    unfold item_at. cbn [n_buf n_arr]. rewrite fresh_get by (apply item_pos, N). exact E.
Qed.
(* running totals are fresh row-major arrays *)
Lemma scan_fresh {T} typed (g : scalar -> T) h init comb zero x axis z : good x -> axis_ok x axis -> scan_with typed g h init comb zero x axis = Ok z ->
  n_arr z = fresh (shape_of z) (itemsize (n_kind z)) /\ length (n_buf z) = prod (shape_of z).
Proof.
  intros G HA E. destruct (scan_running typed g h init comb zero x axis G HA) as (z' & E' & (K & _) & L & P & A).
  rewrite E in E'. injection E' as ->. rewrite K. split; [exact A|]. rewrite L, P. reflexivity.
Qed.
Lemma cumulative_fresh op x axis z : good x -> axis_ok x axis -> cumulative_total op x axis = Ok z ->
  n_arr z = fresh (shape_of z) (itemsize (n_kind z)) /\ length (n_buf z) = prod (shape_of z).
Proof.
  intros G HA. unfold cumulative_total, cumulative_op. destruct (n_kind x); cbn [part int_of]; try discriminate; intros E; eapply scan_fresh; try exact E; assumption.
Qed.

Lemma cumulative_ok op x axis : good x -> real (n_kind x) = true -> axis_ok x axis -> exists z, cumulative_total op x axis = Ok z /\ good z /\ exists Q, running Q x axis z.
Proof.
  intros G R HA. destruct (is_float_kind (n_kind x)) eqn:EF.
  - assert (float_kind (n_kind x)) as K by (unfold float_kind; destruct (n_kind x); try discriminate EF; try discriminate R; auto).
    destruct (cum_float_spec op x axis G K HA) as (z & E & GZ & HR). exists z. split; [exact E|]. split; [exact GZ|eexists; exact HR].
  - assert (n_kind x = Bool \/ n_kind x = Int8 \/ (is_integer (n_kind x) = true /\ n_kind x <> Int8)) as [K|[K|[K K8]]].
    { destruct (n_kind x); try discriminate R; try discriminate EF; try (left; reflexivity); try (right; left; reflexivity); right; right; split; (reflexivity || discriminate). }
    + destruct (cum_f64_spec false op x axis G R HA) as (z & E & GZ & HR). exists z. split; [unfold cumulative_total; rewrite K at 1; exact E|]. split; [exact GZ|eexists; exact HR].
    + destruct (cum_f64_spec false op x axis G R HA) as (z & E & GZ & HR). exists z. split; [unfold cumulative_total; rewrite K at 1; exact E|]. split; [exact GZ|eexists; exact HR].
    + destruct (cum_int_spec op x axis G K K8 HA) as (z & E & GZ & HR). exists z. split; [exact E|]. split; [exact GZ|eexists; exact HR].
Qed.
