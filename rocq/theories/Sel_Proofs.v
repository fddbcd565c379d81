From Verif Require Import Base Lists Arr_Spec Arr_Model Arr_Wf Arr_Proofs Copy_Model Copy_Proofs
  Idx_Model Idx_Wf Idx_Assign Int_Model F64_Model F64_Proofs Elem_Proofs Red_Model Red_Spec Red_Proofs Red_Scan
  Man_Model Man_Proofs Man_Ops Man_Ops2 Man_Edit Sel_Spec Sel_Model.
Local Open Scope nat_scope.

(* ---- index values ---- *)
Definition i64_range (i : Z) : Prop := (- 2 ^ 63 <= i < 2 ^ 63)%Z.

Lemma norm_index_spec i n : i64_range i -> (Z.of_nat n <= isize_max)%Z -> norm_index i n = py_index i n.
Proof.
  intros Hi Hn. unfold norm_index, py_index, normalize_index, isize_max, i64_range in *.
  destruct (Z.ltb_spec i 0) as [H|H].
  - destruct (Z.leb_spec 0 i); [lia|]. cbn [andb]. rewrite andb_true_r.
    destruct (Z.leb_spec (- Z.of_nat n) i) as [H1|H1].
    + unfold wrap_usize, two64. rewrite Z.mod_small by lia. destruct (Z.ltb_spec (Z.of_nat n + i) (Z.of_nat n)); [reflexivity|lia].
    + unfold wrap_usize, two64. replace (Z.of_nat n + i)%Z with (Z.of_nat n + i + 2 ^ 64 + (-1) * 2 ^ 64)%Z by lia.
      rewrite Z_mod_plus_full, Z.mod_small by lia. destruct (Z.ltb_spec (Z.of_nat n + i + 2 ^ 64) (Z.of_nat n)); [lia|reflexivity].
  - destruct (Z.leb_spec 0 i); [|lia]. cbn [andb]. destruct (Z.ltb_spec i (Z.of_nat n)); [reflexivity|].
    rewrite andb_false_r. reflexivity.
Qed.
Lemma py_index_lt i n k : py_index i n = Some k -> k < n.
Proof.
  unfold py_index. destruct (Z.leb_spec 0 i), (Z.ltb_spec i (Z.of_nat n)); cbn [andb]; intros H'; try (injection H' as <-; lia);
    destruct (Z.leb_spec (- Z.of_nat n) i), (Z.ltb_spec i 0); cbn [andb] in H'; try discriminate; injection H' as <-; lia.
Qed.

Lemma index_mapM_ok iv n js : Forall i64_range iv -> (Z.of_nat n <= isize_max)%Z ->
  map (fun i => py_index i n) iv = map Some js -> mapM (fun i => of_opt (norm_index i n)) iv = Ok js.
Proof.
  intros HR Hn. revert js; induction HR as [|i iv Hi HR IH]; intros js HJ; destruct js as [|j js]; try discriminate; [reflexivity|].
  cbn [map] in HJ. injection HJ as HJ1 HJ2. cbn [mapM]. rewrite norm_index_spec by assumption. rewrite HJ1. cbn [of_opt bind].
  rewrite (IH js HJ2). reflexivity.
Qed.
Lemma index_mapM_err iv n : Forall i64_range iv -> (Z.of_nat n <= isize_max)%Z ->
  (exists i, In i iv /\ py_index i n = None) -> mapM (fun i => of_opt (norm_index i n)) iv = Err.
Proof.
  intros HR Hn. induction HR as [|i iv Hi HR IH]; intros (x & Hx & Ex); [destruct Hx|].
  cbn [mapM]. rewrite norm_index_spec by assumption. destruct (py_index i n) as [k|] eqn:E; cbn [of_opt bind]; [|reflexivity].
  destruct Hx as [->|Hx]; [congruence|]. rewrite IH by (exists x; auto). reflexivity.
Qed.
Lemma index_values_split ibuf ia iv n : wf ibuf ia -> elems ibuf ia = map Some iv ->
  index_values ibuf ia n = mapM (fun i => of_opt (norm_index i n)) iv.
Proof.
  intros W E. pose proof (read_offsets ibuf ia iv W E) as RO. unfold index_values. clear E.
  revert iv RO. induction (iter_offsets ia) as [|o l IH]; intros iv RO; cbn [mapM] in *.
  - injection RO as <-. reflexivity.
  - destruct (read ibuf ia o) as [i| | |]; cbn [bind] in *; try discriminate.
    destruct (mapM (read ibuf ia) l) as [iv'| | |]; cbn [bind] in *; try discriminate.
    injection RO as <-. cbn [mapM]. rewrite (IH iv' eq_refl). destruct (of_opt (norm_index i n)); reflexivity.
Qed.

(* ---- gathering into a new array ---- *)
Lemma gather_all {V} sh (F : list nat -> res V) (v : list nat -> V) :
  (forall idx, inb idx sh -> F idx = Ok (v idx)) ->
  mapM F (odometer (prod sh) (repeat 0 (length sh)) sh) = Ok (map v (all_idx sh)).
Proof. intros H. rewrite odometer_all. apply mapM_ok. intros idx Hi. apply H, in_all_idx, Hi. Qed.
Lemma gather_get {V} sh (v : list nat -> V) item idx : (0 < item)%Z -> inb idx sh ->
  get (map v (all_idx sh)) (fresh sh item) idx = Some (v idx).
Proof. intros HI Hi. rewrite fresh_get by exact HI. rewrite nth_error_map', nth_error_all_idx_rank by exact Hi. reflexivity. Qed.
Lemma gather_len {V} sh (v : list nat -> V) : length (map v (all_idx sh)) = prod sh.
Proof. rewrite map_length, all_idx_length. reflexivity. Qed.
Lemma gather_err {A V} (F : A -> res V) l : (forall x, In x l -> (exists v, F x = Ok v) \/ F x = Err) ->
  (exists x, In x l /\ F x = Err) -> mapM F l = Err.
Proof.
  induction l as [|x l IH]; intros H (y & Hy & Ey); [destruct Hy|]. cbn [mapM].
  destruct (H x (or_introl eq_refl)) as [[v Ev]|Ev]; rewrite Ev; cbn [bind]; [|reflexivity].
  destruct Hy as [->|Hy]; [congruence|].
  rewrite IH; [reflexivity|intros; apply H; right; assumption|exists y; auto].
Qed.

Lemma write_all_enum_from {A} (vs : list A) : forall pre old, length old = length vs ->
  write_all (combine (seq (length pre) (length vs)) vs) (pre ++ old) = Ok (pre ++ vs).
Proof.
  induction vs as [|v vs IH]; intros pre old HL; cbn [length seq combine write_all].
  - destruct old; [reflexivity|discriminate].
  - destruct old as [|o old]; [discriminate|]. rewrite app_length. cbn [length].
    destruct (Nat.ltb_spec (length pre) (length pre + S (length old))); [|lia].
    rewrite upd_app_r by lia. rewrite Nat.sub_diag. cbn [upd].
    specialize (IH (pre ++ [v]) old). rewrite app_length in IH. cbn [length] in IH, HL.
    rewrite Nat.add_1_r in IH. rewrite <- !app_assoc in IH. cbn [app] in IH. apply IH. lia.
Qed.
Lemma write_all_enum {A} (vs : list A) out0 : length out0 = length vs ->
  write_all (combine (seq 0 (length vs)) vs) out0 = Ok vs.
Proof. exact (write_all_enum_from vs [] out0). Qed.

Lemma combine_seq_app {A} (l m : list A) s :
  combine (seq s (length (l ++ m))) (l ++ m) = combine (seq s (length l)) l ++ combine (seq (s + length l) (length m)) m.
Proof.
  revert s; induction l as [|x l IH]; intros s; cbn [app length seq combine]; [rewrite Nat.add_0_r; reflexivity|].
  rewrite IH. cbn [app]. replace (S s + length l) with (s + S (length l)) by lia. reflexivity.
Qed.
Lemma combine_seq_map {A} (g : nat -> A) s r : combine (seq s r) (map g (seq 0 r)) = map (fun j => (s + j, g j)) (seq 0 r).
Proof.
  revert s g; induction r as [|r IH]; intros s g; [reflexivity|]. cbn [seq map combine]. rewrite Nat.add_0_r. f_equal.
  rewrite <- (seq_shift r 0), !map_map. rewrite IH. apply map_ext. intros j. f_equal. lia.
Qed.
Lemma rows_enum {A B} (g : B -> nat -> A) r (js : list B) : forall s,
  concat (map (fun p => map (fun j => (fst p * r + j, g (snd p) j)) (seq 0 r)) (combine (seq s (length js)) js))
  = combine (seq (s * r) (length (flat_map (fun i => map (g i) (seq 0 r)) js))) (flat_map (fun i => map (g i) (seq 0 r)) js).
Proof.
  induction js as [|j js IH]; intros s; [reflexivity|]. cbn [length seq combine map concat flat_map fst snd].
  rewrite combine_seq_app, IH. f_equal.
  - rewrite map_length, seq_length. symmetry. apply combine_seq_map.
  - rewrite map_length, seq_length. f_equal. f_equal. lia.
Qed.
Lemma list_as_nth {A} (d : A) (l : list A) : l = map (fun i => nth i l d) (seq 0 (length l)).
Proof.
  induction l as [|x l IH]; [reflexivity|]. cbn [length seq map nth]. f_equal. etransitivity; [exact IH|].
  rewrite <- seq_shift, map_map. reflexivity.
Qed.
Lemma flat_map_map {A B C} (f : B -> list C) (g : A -> B) l : flat_map f (map g l) = flat_map (fun x => f (g x)) l.
Proof. induction l as [|x l IH]; [reflexivity|]. cbn. rewrite IH. reflexivity. Qed.
Lemma map_flat_map {A B C} (f : B -> C) (g : A -> list B) l : map f (flat_map g l) = flat_map (fun x => map f (g x)) l.
Proof. induction l as [|x l IH]; [reflexivity|]. cbn. rewrite map_app, IH. reflexivity. Qed.

(* ---- take ---- *)
Section Take.
Context {V : Type} (zero : V).
Definition picked (buf : list V) (a : arr) (axis : nat) (js : list nat) (idx : list nat) : V :=
  vget zero buf a (upd idx axis (nth (nth axis idx 0) js 0)).

Lemma picked_inb sh axis n js idx : nth_error sh axis = Some n -> Forall (fun j => j < n) js ->
  inb idx (upd sh axis (length js)) ->
  nth_error js (nth axis idx 0) = Some (nth (nth axis idx 0) js 0) /\ inb (upd idx axis (nth (nth axis idx 0) js 0)) sh.
Proof.
  intros Hn HJ Hi.
  assert (Hlt : nth axis idx 0 < length js).
  { eapply nth_inb; [exact Hi|]. apply nth_error_upd_eq. apply nth_error_Some. congruence. }
  split; [apply nth_error_nth'; exact Hlt|].
  rewrite <- (upd_same sh axis n Hn) at 1. rewrite <- (upd_upd sh axis (length js) n).
  apply inb_upd; [exact Hi|]. rewrite Forall_forall in HJ. apply HJ, nth_In; exact Hlt.
Qed.

Lemma take_general_spec (buf : list V) a axis n js : wf buf a -> nth_error (a_shape a) axis = Some n ->
  Forall (fun j => j < n) js -> let osh := upd (a_shape a) axis (length js) in
  take_general buf a js axis osh = Ok (map (picked buf a axis js) (all_idx osh)).
Proof.
  intros W Hn HJ osh. unfold take_general, ndim. replace (length (a_shape a)) with (length osh) by apply upd_length.
  apply gather_all. intros idx Hi. destruct (picked_inb _ _ _ _ _ Hn HJ Hi) as [E1 E2]. rewrite E1.
  apply read_vget; assumption.
Qed.
Lemma take_1d_spec (buf : list V) a n js : wf buf a -> a_shape a = [n] -> a_c a = true -> Forall (fun j => j < n) js ->
  take_1d buf a js = Ok (map (picked buf a 0 js) (all_idx [length js])).
Proof.
  intros W Hs Hc HJ. unfold take_1d. rewrite (mapM_ok _ (fun j => vget zero buf a [j])).
  - f_equal. cbn [all_idx map]. rewrite (list_as_nth 0 js) at 1. rewrite map_map.
    rewrite flat_map_concat_map, concat_map, map_map. cbn [map]. symmetry.
    exact (concat_singletons (fun i => picked buf a 0 js [i]) (seq 0 (length js))).
  - intros j Hj. rewrite Forall_forall in HJ. specialize (HJ j Hj).
    assert (Hi : inb [j] (a_shape a)) by (rewrite Hs; constructor; [exact HJ|constructor]).
    rewrite <- (read_vget zero buf a [j] W Hi). f_equal.
    destruct W as (_ & _ & _ & HL & _ & HC & _). unfold byte_offset_for.
    rewrite (c_contig_dot (a_shape a) (a_strides a) (a_item a) [j] HL Hi (HC Hc)). rewrite Hs. cbn. lia.
Qed.
Lemma take_axis0_spec (buf : list V) a n rest js : wf buf a -> a_shape a = n :: rest -> a_c a = true ->
  nth 0 (a_strides a) 0%Z = (a_item a * Z.of_nat (prod rest))%Z -> Forall (fun j => j < n) js ->
  let osh := length js :: rest in
  take_axis0 zero buf a js osh = Ok (map (picked buf a 0 js) (all_idx osh)).
Proof.
  intros W Hs Hc Hst HJ osh. unfold take_axis0. rewrite Hst. pose proof W as (HI & _ & _ & HL & _ & HC & _).
  assert (G : forall P : bool, P = false -> (if P then Fault else
     bind (mapM (fun p => mapM (fun j => bind (read buf a (Z.of_nat (snd p) * (a_item a * Z.of_nat (prod rest)) + Z.of_nat j * a_item a)%Z)
        (fun v => Ok (fst p * Z.to_nat (a_item a * Z.of_nat (prod rest) / a_item a) + j, v)))
        (seq 0 (Z.to_nat (a_item a * Z.of_nat (prod rest) / a_item a)))) (combine (seq 0 (length js)) js))
        (fun rows => write_all (concat rows) (repeat zero (prod osh)))) = Ok (map (picked buf a 0 js) (all_idx osh))).
  2:{ apply G. apply orb_false_iff; split; [apply Z.ltb_ge; nia|]. apply negb_false_iff, Z.eqb_eq.
      rewrite Z.mul_comm. apply Z_mod_mult. }
  intros P ->. rewrite (Z.mul_comm (a_item a) (Z.of_nat (prod rest))), Z.div_mul, Nat2Z.id by lia.
  set (r := prod rest) in *.
  set (g := fun j q => vget zero buf a (j :: unrank rest q)).
  rewrite (mapM_ok _ (fun p => map (fun q => (fst p * r + q, g (snd p) q)) (seq 0 r))).
  - cbn [bind]. pose proof (rows_enum g r js 0) as RE. rewrite Nat.mul_0_l in RE. rewrite RE. clear RE.
    rewrite write_all_enum.
    + f_equal. subst osh. cbn [all_idx]. rewrite map_flat_map. rewrite (list_as_nth 0 js) at 1. rewrite flat_map_map.
      apply flat_map_ext_in. intros i Hi. rewrite map_map, all_idx_unrank, map_map. apply map_ext. intros q.
      unfold picked, g. cbn [nth upd]. reflexivity.
    + rewrite repeat_length, (flat_map_const_length _ _ r) by (intros; rewrite map_length, seq_length; reflexivity).
      subst osh. cbn [prod]. reflexivity.
  - intros [i j] Hp. cbn [fst snd]. assert (Hj : j < n).
    { apply in_combine_r in Hp. rewrite Forall_forall in HJ. apply HJ; exact Hp. }
    apply mapM_ok. intros q Hq. apply in_seq in Hq.
    assert (Hi : inb (j :: unrank rest q) (a_shape a)) by (rewrite Hs; apply inb_cons; split; [exact Hj|apply unrank_inb; unfold r in Hq; lia]).
    replace (Z.of_nat j * (Z.of_nat r * a_item a) + Z.of_nat q * a_item a)%Z with (byte_offset_for a (j :: unrank rest q)).
    + rewrite (read_vget zero buf a _ W Hi). reflexivity.
    + unfold byte_offset_for. rewrite (c_contig_dot (a_shape a) (a_strides a) (a_item a) _ HL Hi (HC Hc)). rewrite Hs. cbn [rank].
      rewrite rank_unrank by (unfold r in Hq; lia). fold r. lia.
Qed.

(* the rows of a C-contiguous array lie strides[0] bytes apart *)
Definition packed_rows (a : arr) (axis : nat) : Prop :=
  axis = 0 -> a_c a = true -> 2 <= ndim a ->
  nth 0 (a_strides a) 0%Z = (a_item a * Z.of_nat (prod (tl (a_shape a))))%Z.

Lemma packed_rows_fresh sh item axis : packed_rows (fresh sh item) axis.
Proof.
  intros _ _ H. unfold ndim, fresh in *. cbn [a_shape a_strides a_item] in *. destruct sh as [|n rest]; cbn in H; [lia|].
  cbn [tl]. pose proof (dot_c_strides (n :: rest) item (1 :: repeat 0 (length rest))) as D.
  destruct (c_strides (n :: rest) item) as [|s st] eqn:E.
  { apply (f_equal (@length _)) in E. rewrite c_strides_length in E. discriminate. }
  cbn [nth]. cbn [dot rank] in D. rewrite dot_zeros in D.
  assert (R0 : rank rest (repeat 0 (length rest)) = 0) by (clear; induction rest as [|x l IH]; [reflexivity|cbn; rewrite IH; lia]).
  rewrite R0 in D. lia.
Qed.

Lemma take_spec (buf : list V) a ibuf ia iv axis_opt axis n : wf buf a -> wf ibuf ia -> elems ibuf ia = map Some iv ->
  Forall i64_range iv -> (Z.of_nat n <= isize_max)%Z ->
  axis = match axis_opt with Some x => x | None => 0 end -> nth_error (a_shape a) axis = Some n -> packed_rows a axis ->
  let osh := upd (a_shape a) axis (size ia) in
  (forall js, map (fun i => py_index i n) iv = map Some js ->
   exists out, take zero buf a ibuf ia axis_opt = Ok (osh, out) /\ length out = prod osh /\
     forall item idx, (0 < item)%Z -> inb idx osh ->
       get out (fresh osh item) idx = get buf a (upd idx axis (nth (nth axis idx 0) js 0))) /\
  ((exists i, In i iv /\ py_index i n = None) -> take zero buf a ibuf ia axis_opt = Err).
Proof.
  intros W WI E HR Hn -> Hax HP osh.
  assert (Hnd : match axis_opt with Some x => x | None => 0 end < ndim a) by (apply nth_error_Some; unfold ndim; congruence).
  set (axis := match axis_opt with Some x => x | None => 0 end) in *.
  assert (Hnth : nth axis (a_shape a) 0 = n) by (apply nth_error_nth with (1 := Hax)).
  assert (HL : length iv = size ia).
  { apply (f_equal (@length _)) in E. unfold elems in E. rewrite !map_length, all_idx_length in E. unfold size. lia. }
  unfold take. fold axis. fold osh. destruct (Nat.leb_spec (ndim a) axis); [lia|].
  split.
  - intros js HJ.
    assert (HLJ : length js = size ia) by (apply (f_equal (@length _)) in HJ; rewrite !map_length in HJ; lia).
    assert (HF : Forall (fun j => j < n) js).
    { apply Forall_forall. intros j Hj. apply (in_map Some) in Hj. rewrite <- HJ in Hj. apply in_map_iff in Hj as (i & Ei & _).
      eapply py_index_lt; exact Ei. }
    destruct (Nat.eqb_spec (size ia) 0) as [H0|H0].
    + exists (repeat zero (prod osh)). split; [reflexivity|]. split; [apply repeat_length|].
      intros item idx _ Hi. exfalso. apply (inb_prod_pos _ _) in Hi. unfold osh in Hi. rewrite H0 in Hi.
      assert (Z0 : prod (upd (a_shape a) axis 0) = 0); [|lia].
      apply prod_zero_iff. apply nth_error_In with axis. apply nth_error_upd_eq. exact Hnd.
    + rewrite Hnth, (index_values_split ibuf ia iv n WI E), (index_mapM_ok iv n js HR Hn HJ). cbn [bind].
      exists (map (picked buf a axis js) (all_idx osh)).
      split; [|split; [apply gather_len|]].
      * unfold osh in *. rewrite <- HLJ in *.
        destruct (Nat.eqb_spec (ndim a) 1) as [H1|H1]; cbn [andb]; [destruct (a_c a) eqn:Hc|].
        -- assert (Ha0 : axis = 0) by lia. rewrite Ha0 in *. unfold ndim in H1. destruct (a_shape a) as [|m [|]] eqn:Es; try discriminate.
           cbn in Hax. injection Hax as ->. cbn [upd]. rewrite (take_1d_spec buf a n js W Es Hc HF). reflexivity.
        -- rewrite andb_false_r. rewrite (take_general_spec buf a axis n js W Hax HF). reflexivity.
        -- destruct (Nat.eqb_spec axis 0) as [Ha0|Ha0]; cbn [andb]; [destruct (a_c a) eqn:Hc|].
           ++ rewrite Ha0 in *. destruct (a_shape a) as [|m rest] eqn:Es; [discriminate|]. cbn in Hax. injection Hax as ->. cbn [upd].
              rewrite (take_axis0_spec buf a n rest js W Es Hc); [reflexivity| |exact HF].
              unfold packed_rows in HP. rewrite Es in HP. cbn [tl] in HP. apply HP; [reflexivity|exact Hc|lia].
           ++ rewrite (take_general_spec buf a axis n js W Hax HF). reflexivity.
           ++ rewrite (take_general_spec buf a axis n js W Hax HF). reflexivity.
      * intros item idx HI Hi. rewrite gather_get by assumption. unfold picked. symmetry. apply vget_some; [exact W|].
        unfold osh in Hi. rewrite <- HLJ in Hi. apply (picked_inb _ _ _ _ _ Hax HF Hi).
  - intros HB. destruct (Nat.eqb_spec (size ia) 0) as [H0|H0].
    + exfalso. destruct HB as (i & Hi & _). destruct iv; [destruct Hi|cbn in HL; lia].
    + rewrite Hnth, (index_values_split ibuf ia iv n WI E), (index_mapM_err iv n HR Hn HB). reflexivity.
Qed.
End Take.
