(* C32-C39: sorting, selection, searching, unique and set routines. *)
From Coq Require Import Permutation Sorted SpecFloat.
From Verif Require Import Base Lists Arr_Spec Arr_Model Arr_Wf Arr_Proofs Copy_Model Copy_Proofs Idx_Model Idx_Wf
  Elem_Model Elem_Proofs Int_Model Int_Proofs Int_Props F64_Model F64_Proofs Red_Spec Red_Model Red_Proofs Red_Scan
  Sort_Spec Sort_Model Sort_Proofs Sort_Select Sort_Lanes Sort_Api.
Local Open Scope nat_scope.

(* the order of stored items induced by the keys the code compares *)
Definition keyed {V K} (rd : V -> K) (leb : K -> K -> bool) (x y : V) : bool := leb (rd x) (rd y).
(* every stored item survives the conversion to the key type and back *)
Definition roundtrips {V K} (rd : V -> K) (wr : K -> V) (buf : list V) (a : arr) : Prop :=
  forall v, In (Some v) (elems buf a) -> wr (rd v) = v.

Lemma Z_total_order : total_order Z.leb.
Proof.
  split; [split|].
  - intros x y. rewrite !Z.leb_le. lia.
  - intros x y z. rewrite !Z.leb_le. lia.
  - intros x y. rewrite !Z.leb_le. lia.
Qed.
Lemma by_preorder {V K} (rd : V -> K) leb : total_preorder leb -> total_preorder (keyed rd leb).
Proof. intros [TT TR]. split; [intros x y; apply TT|intros x y z; apply TR]. Qed.

Lemma sorts_items {V K} (rd : V -> K) (wr : K -> V) leb (l : list V) ks : (forall v, In v l -> wr (rd v) = v) ->
  sorts leb (map rd l) ks -> sorts (keyed rd leb) l (map wr ks).
Proof.
  intros HR [HP HA]. split.
  - apply (Permutation_map wr) in HP. rewrite map_map in HP. rewrite (map_ext_in _ id) in HP by exact HR. rewrite map_id in HP. exact HP.
  - assert (HB : forall k, In k ks -> rd (wr k) = k).
    { intros k Hk. apply (Permutation_in _ (Permutation_sym HP)) in Hk. apply in_map_iff in Hk as (v & <- & Hv). rewrite HR by exact Hv. reflexivity. }
    unfold ascending in *. apply SSorted_nth. rewrite SSorted_nth in HA. intros i j x y Hij Hx Hy.
    rewrite nth_error_map' in Hx, Hy. destruct (nth_error ks i) as [u|] eqn:Eu; [|discriminate].
    destruct (nth_error ks j) as [w|] eqn:Ew; [|discriminate]. injection Hx as <-. injection Hy as <-.
    unfold keyed. rewrite (HB u (nth_error_In _ _ Eu)), (HB w (nth_error_In _ _ Ew)). exact (HA i j u w Hij Eu Ew).
Qed.

Lemma lane_in {V} (buf : list V) a axis oi n v : nth_error (a_shape a) axis = Some n -> inb oi (remove_at axis (a_shape a)) ->
  In (Some v) (lane buf a axis oi) -> In (Some v) (elems buf a).
Proof.
  intros Hn Ho H. unfold lane in H. apply in_map_iff in H as (k & Ek & Hk). apply in_seq in Hk.
  unfold elems. apply in_map_iff. eexists. split; [exact Ek|]. apply in_all_idx.
  apply (lane_inb (a_shape a) axis oi k n); try assumption. rewrite (nth_error_nth _ _ _ Hn) in Hk. lia.
Qed.

(* ---- C32 ------------------------------------------------------------------ *)

(* sort(a, axis): every lane of the result is a non-decreasing rearrangement of the
   same lane of a.  The values travel as f64, hence the round-trip hypothesis. *)
Theorem C32_sort_partial : forall {V K} (rd : V -> K) (wr : K -> V) leb buf typed a axis n,
  total_preorder leb -> wf buf a -> roundtrips rd wr buf a -> nth_error (a_shape a) axis = Some n ->
  exists out, sort rd wr leb buf typed a (Some axis) = Ok (a_shape a, out) /\ length out = size a /\
    forall oi lv, inb oi (remove_at axis (a_shape a)) -> lane buf a axis oi = map Some lv ->
      exists r, lane out (fresh (a_shape a) (a_item a)) axis oi = map Some r /\ sorts (keyed rd leb) lv r.
Proof.
  intros V K rd wr leb buf typed a axis n TP W HR Hn.
  destruct (sort_axis_spec rd wr leb buf typed a axis n TP W Hn) as (out & E & L & H).
  exists out. split; [exact E|]. split; [exact L|]. intros oi lv Ho EL. destruct (H oi lv Ho EL) as (r & Er & HC).
  exists r. split; [exact Er|].
  assert (HRL : forall v, In v lv -> wr (rd v) = v).
  { intros v Hv. apply HR. apply (lane_in buf a axis oi n v Hn Ho). rewrite EL. apply in_map, Hv. }
  destruct HC as [(H1 & ->)|(ks & HS & ->)]; [|apply sorts_items; assumption].
  split; [apply Permutation_refl|].
  assert (LV : length lv = n).
  { pose proof (f_equal (@length _) EL) as EL'. rewrite lane_length, map_length in EL'. rewrite <- EL'. apply nth_error_nth, Hn. }
  destruct lv as [|x [|y lv]]; [constructor|repeat constructor|cbn in LV; lia].
Qed.

Lemma lane_1d {V} (buf : list V) f n : a_shape f = [n] -> lane buf f 0 [] = elems buf f.
Proof.
  intros S. unfold lane, elems. rewrite S. cbn [nth]. apply nth_error_ext. intros k. rewrite !nth_error_map', nth_error_seq.
  destruct (Nat.ltb_spec k n) as [Hk|Hk].
  - rewrite nth_error_all_idx by (cbn; lia). cbn [option_map unrank prod insert_at Nat.add].
    cbn [firstn skipn app]. f_equal. f_equal. f_equal. rewrite Nat.div_1_r. reflexivity.
  - rewrite (proj2 (nth_error_None (all_idx [n]) k)) by (rewrite all_idx_length; cbn; lia). reflexivity.
Qed.

Lemma flattened_spec {V} (buf : list V) a : wf buf a -> a_c a = true ->
  exists f, flattened a = Ok f /\ a_shape f = [size a] /\ wf buf f /\ a_item f = a_item a /\ elems buf f = elems buf a.
Proof.
  intros W HC. unfold flattened. destruct (reshape_c_is_view buf a [size a] W HC) as (f & E & S & W' & G).
  { cbn [prod]. unfold size. lia. }
  rewrite E. exists f. split; [reflexivity|]. split; [exact S|]. split; [exact W'|]. split.
  - unfold reshape in E. repeat (match type of E with (if ?c then _ else _) = _ => destruct c end; try discriminate).
    injection E as <-. reflexivity.
  - unfold elems. rewrite S, !all_idx_unrank, !map_map. cbn [prod]. rewrite Nat.mul_1_r. apply map_ext_in.
    intros k Hk. apply in_seq in Hk. fold (size a) in Hk.
    assert (Hi : inb (unrank [size a] k) [size a]) by (apply unrank_inb; cbn; lia).
    destruct (G _ Hi) as [_ ->]. rewrite rm_unrank_eq, rm_rank_eq, rank_unrank by (cbn; lia). reflexivity.
Qed.
Lemma fresh_1d {V} (out : list V) n item : (0 < item)%Z -> length out = n -> lane out (fresh [n] item) 0 [] = map Some out.
Proof.
  intros Hi HL. rewrite (lane_1d out (fresh [n] item) n eq_refl). unfold elems. cbn [fresh a_shape]. apply nth_error_ext. intros k.
  rewrite !nth_error_map'. destruct (Nat.lt_ge_cases k n) as [Hk|Hk].
  - rewrite nth_error_all_idx by (cbn; lia). cbn [option_map]. rewrite fresh_get by exact Hi. rewrite rank_unrank by (cbn; lia).
    destruct (nth_error out k) eqn:E; [reflexivity|]. apply nth_error_None in E. lia.
  - rewrite (proj2 (nth_error_None (all_idx [n]) k)) by (rewrite all_idx_length; cbn; lia).
    rewrite (proj2 (nth_error_None out k)) by lia. reflexivity.
Qed.

(* sort(a, axis=None) of a C-contiguous array sorts all its elements *)
Theorem C32_sort_flat_partial : forall {V K} (rd : V -> K) (wr : K -> V) leb buf typed a vals,
  total_preorder leb -> wf buf a -> roundtrips rd wr buf a -> a_c a = true -> elems buf a = map Some vals ->
  exists out, sort rd wr leb buf typed a None = Ok ([size a], out) /\ sorts (keyed rd leb) vals out.
Proof.
  intros V K rd wr leb buf typed a vals TP W HR HC E. destruct (flattened_spec buf a W HC) as (f & EF & SF & WF & IF & ELF).
  unfold sort. rewrite EF. cbn [bind].
  destruct (C32_sort_partial rd wr leb buf typed f 0 (size a) TP WF) as (out & ES & LO & H).
  { intros v Hv. apply HR. rewrite <- ELF. exact Hv. }
  { rewrite SF. reflexivity. }
  cbn [sort] in ES. rewrite SF in ES. exists out. split; [exact ES|].
  destruct (H [] vals) as (r & Er & HS).
  { rewrite SF. constructor. }
  { rewrite (lane_1d buf f (size a) SF), ELF. exact E. }
  assert (LS : size f = size a) by (unfold size at 1; rewrite SF; cbn [prod]; lia). rewrite LS in LO.
  rewrite SF, fresh_1d in Er by (try exact LO; pose proof WF as (HI & _); exact HI).
  apply map_Some_inj in Er. subst r. exact HS.
Qed.

(* integer dtypes whose values are at most 2^53 in absolute value *)
Lemma ints_roundtrip t (buf : list Z) a : (forall v, In (Some v) (elems buf a) -> representable t v /\ (Z.abs v <= 2 ^ 53)%Z) ->
  roundtrips f64_of_int (sat t) buf a.
Proof. intros H v Hv. destruct (H v Hv) as [HR HS]. exact (through_f64_small t v HR HS). Qed.

Theorem C32_sort_int_partial : forall t (buf : list Z) typed a axis n,
  wf buf a -> (forall v, In (Some v) (elems buf a) -> representable t v /\ (Z.abs v <= 2 ^ 53)%Z) ->
  nth_error (a_shape a) axis = Some n ->
  exists out, sort f64_of_int (sat t) Z.leb buf typed a (Some axis) = Ok (a_shape a, out) /\ length out = size a /\
    forall oi lv, inb oi (remove_at axis (a_shape a)) -> lane buf a axis oi = map Some lv ->
      exists r, lane out (fresh (a_shape a) (a_item a)) axis oi = map Some r /\ sorts Z.leb lv r.
Proof.
  intros t buf typed a axis n W HV Hn.
  destruct (C32_sort_partial f64_of_int (sat t) Z.leb buf typed a axis n (proj1 Z_total_order) W (ints_roundtrip t buf a HV) Hn)
    as (out & E & L & H). exists out. split; [exact E|]. split; [exact L|]. intros oi lv Ho EL.
  destruct (H oi lv Ho EL) as (r & Er & HP & HA). exists r. split; [exact Er|]. split; [exact HP|].
  assert (HS : forall v, In v r -> f64_of_int v = v).
  { intros v Hv. apply f64_of_int_small. apply (HV v). apply (lane_in buf a axis oi n v Hn Ho). rewrite EL. apply in_map.
    exact (Permutation_in _ (Permutation_sym HP) Hv). }
  unfold ascending in *. apply SSorted_nth. rewrite SSorted_nth in HA. intros i j x y Hij Hx Hy.
  specialize (HA i j x y Hij Hx Hy). unfold keyed in HA.
  rewrite (HS x (nth_error_In _ _ Hx)), (HS y (nth_error_In _ _ Hy)) in HA. exact HA.
Qed.

Example C32_nonvacuous :
  let buf := [5; 1; 4; 2; 3; 2]%Z in let a := mkArr 0 [3; 2] [8; 24]%Z 8 false true in
  sort f64_of_int (sat int64) Z.leb buf true a (Some 0) = Ok ([3; 2], [1; 2; 4; 2; 5; 3]%Z) /\
  sort f64_of_int (sat int64) Z.leb buf true a (Some 1) = Ok ([3; 2], [2; 5; 1; 3; 2; 4]%Z) /\
  lane buf a 0 [0] = map Some [5; 1; 4]%Z.
Proof. repeat split; vm_compute; reflexivity. Qed.

(* int64 beyond 2^53: sorting replaces 2^53 + 1 by 2^53 *)
Theorem C32_sort_int64_refuted : exists buf a vals out, wf buf a /\ elems buf a = map Some vals /\
  Forall (representable int64) vals /\
  sort f64_of_int (sat int64) Z.leb buf true a (Some 0) = Ok (a_shape a, out) /\ ~ Permutation vals out.
Proof.
  exists [9007199254740993; 0]%Z, (fresh [2] 8), [9007199254740993; 0]%Z, [0; 9007199254740992]%Z.
  split; [apply fresh_wf; [lia|cbn; lia|reflexivity]|]. split; [vm_compute; reflexivity|]. split.
  { repeat constructor; vm_compute; discriminate. }
  split; [vm_compute; reflexivity|]. intros HP.
  assert (H : In 9007199254740993%Z [0; 9007199254740992]%Z) by (apply (Permutation_in _ HP); left; reflexivity).
  destruct H as [H|[H|[]]]; discriminate H.
Qed.
(* axis=None on a strided view panics *)
Theorem C32_sort_flat_strided_refuted : exists (buf : list Z) a vals, wf buf a /\ elems buf a = map Some vals /\
  sort f64_of_int (sat int64) Z.leb buf true a None = Panic.
Proof.
  exists [3; 9; 1; 9]%Z, (mkArr 0 [2] [16]%Z 8 false false), [3; 1]%Z.
  split; [|split; vm_compute; reflexivity].
  pose proof (fresh_wf [3; 9; 1; 9]%Z [4] 8 ltac:(lia) ltac:(cbn; lia) eq_refl) as W.
  destruct W as (W1 & W2 & W3 & W4 & W5 & W6 & W7).
  split; [cbn; lia|]. split; [cbn; lia|]. split; [cbn; unfold two64; lia|]. split; [reflexivity|].
  split; [|split; [discriminate|discriminate]].
  intros idx Hi. inversion Hi as [|i n l l' H1 H2]; subst. inversion H2; subst.
  destruct i as [|[|i]]; [eexists; vm_compute; reflexivity|eexists; vm_compute; reflexivity|cbn in H1; lia].
Qed.
(* ... and on an F-contiguous array it sorts all the elements: sort(a, None) does
   not depend on their order, unlike argsort (C33_argsort_flat_fortran_refuted) *)

(* ---- C33 ------------------------------------------------------------------ *)

(* argsort(a, axis): each lane of the result is the stable sorting permutation of
   that lane, by the f64 keys.  That is the order of the values themselves when the
   conversion is an order embedding on them. *)
Definition embeds {V K} (rd : V -> K) (leb : K -> K -> bool) (vleb : V -> V -> bool) (buf : list V) (a : arr) : Prop :=
  forall v w, In (Some v) (elems buf a) -> In (Some w) (elems buf a) -> leb (rd v) (rd w) = vleb v w.

Lemma stable_order_embed {V K} (rd : V -> K) leb vleb (l : list V) p :
  (forall v w, In v l -> In w l -> leb (rd v) (rd w) = vleb v w) -> stable_order leb (map rd l) p -> stable_order vleb l p.
Proof.
  intros HE [HP HO]. rewrite map_length in HP. split; [exact HP|]. intros i j pi pj x y Hij Hi Hj Hx Hy.
  pose proof (HO i j pi pj (rd x) (rd y) Hij Hi Hj) as H. rewrite !nth_error_map', Hx, Hy in H.
  rewrite !HE in H by (eapply nth_error_In; eassumption). exact (H eq_refl eq_refl).
Qed.

Theorem C33_argsort_partial : forall {V K} (rd : V -> K) leb vleb buf a axis n,
  total_preorder leb -> wf buf a -> embeds rd leb vleb buf a -> nth_error (a_shape a) axis = Some n ->
  exists out, argsort rd leb buf a (Some axis) = Ok (a_shape a, out) /\ length out = size a /\
    forall oi lv, inb oi (remove_at axis (a_shape a)) -> lane buf a axis oi = map Some lv ->
      exists p, lane out (fresh (a_shape a) 8) axis oi = map Some (map Z.of_nat p) /\ stable_order vleb lv p.
Proof.
  intros V K rd leb vleb buf a axis n TP W HE Hn.
  destruct (argsort_axis_spec rd leb buf a axis n TP W Hn) as (out & E & L & H).
  exists out. split; [exact E|]. split; [exact L|]. intros oi lv Ho EL. destruct (H oi lv Ho EL) as (p & Ep & HS).
  exists p. split; [exact Ep|]. apply (stable_order_embed rd leb); [|exact HS].
  intros v w Hv Hw. apply HE; apply (lane_in buf a axis oi n _ Hn Ho); rewrite EL; apply in_map; assumption.
Qed.

Theorem C33_argsort_flat_partial : forall {V K} (rd : V -> K) leb vleb buf a vals,
  total_preorder leb -> wf buf a -> embeds rd leb vleb buf a -> a_c a = true -> elems buf a = map Some vals ->
  exists p, argsort rd leb buf a None = Ok ([size a], map Z.of_nat p) /\ stable_order vleb vals p.
Proof.
  intros V K rd leb vleb buf a vals TP W HE HC E. destruct (flattened_spec buf a W HC) as (f & EF & SF & WF & IF & ELF).
  unfold argsort. rewrite EF. cbn [bind].
  destruct (C33_argsort_partial rd leb vleb buf f 0 (size a) TP WF) as (out & ES & LO & H).
  { intros v w Hv Hw. apply HE; rewrite <- ELF; assumption. }
  { rewrite SF. reflexivity. }
  cbn [argsort] in ES. rewrite SF in ES.
  destruct (H [] vals) as (p & Ep & HS).
  { rewrite SF. constructor. }
  { rewrite (lane_1d buf f (size a) SF), ELF. exact E. }
  assert (LS : size f = size a) by (unfold size at 1; rewrite SF; cbn [prod]; lia). rewrite LS in LO.
  rewrite SF, fresh_1d in Ep by (try exact LO; lia). apply map_Some_inj in Ep. subst out. exists p. split; [exact ES|exact HS].
Qed.

(* the stable sorting permutation is unique, so the statement determines argsort *)
Theorem C33_unique : forall {K} (leb : K -> K -> bool) l p q, total_preorder leb ->
  stable_order leb l p -> stable_order leb l q -> p = q.
Proof. intros K leb l p q TP. apply stable_order_unique; assumption. Qed.

Example C33_nonvacuous :
  let buf := [5; 1; 5; 2; 3; 2]%Z in let a := mkArr 0 [3; 2] [8; 24]%Z 8 false true in
  argsort f64_of_int Z.leb buf a (Some 0) = Ok ([3; 2], [1; 0; 0; 2; 2; 1]%Z) /\
  argsort f64_of_int Z.leb buf (fresh [6] 8) None = Ok ([6], [1; 3; 5; 4; 0; 2]%Z) /\
  embeds f64_of_int Z.leb Z.leb buf a.
Proof.
  split; [vm_compute; reflexivity|]. split; [vm_compute; reflexivity|]. intros v w Hv Hw. f_equal.
  - vm_compute in Hv. repeat destruct Hv as [Hv|Hv]; try injection Hv as <-; try contradiction; vm_compute; reflexivity.
  - vm_compute in Hw. repeat destruct Hw as [Hw|Hw]; try injection Hw as <-; try contradiction; vm_compute; reflexivity.
Qed.

(* int64 beyond 2^53: 2^53 + 1 is placed before 2^53 *)
Theorem C33_argsort_int64_refuted : exists buf a vals, wf buf a /\ elems buf a = map Some vals /\
  argsort f64_of_int Z.leb buf a (Some 0) = Ok ([2], [0; 1]%Z) /\ ~ stable_order Z.leb vals [0; 1].
Proof.
  exists [9007199254740993; 9007199254740992]%Z, (fresh [2] 8), [9007199254740993; 9007199254740992]%Z.
  split; [apply fresh_wf; [lia|cbn; lia|reflexivity]|]. split; [vm_compute; reflexivity|]. split; [vm_compute; reflexivity|].
  intros [_ H]. destruct (H 0 1 0 1 _ _ (Nat.lt_0_succ 0) eq_refl eq_refl eq_refl eq_refl) as [H1 _]. vm_compute in H1. discriminate H1.
Qed.
(* a.argsort() (axis=None by default) of an F-contiguous array numbers the elements
   in memory order: here the elements are already ascending *)
Theorem C33_argsort_flat_fortran_refuted : exists buf a vals, wf buf a /\ elems buf a = map Some vals /\
  argsort f64_of_int Z.leb buf a None = Ok ([4], [0; 2; 1; 3]%Z) /\ stable_order Z.leb vals [0; 1; 2; 3].
Proof.
  exists [1; 3; 2; 4]%Z, (mkArr 0 [2; 2] [8; 16]%Z 8 false true), [1; 2; 3; 4]%Z.
  split.
  { split; [cbn; lia|]. split; [cbn; lia|]. split; [cbn; unfold two64; lia|]. split; [reflexivity|].
    split; [|split; [discriminate|intros _; vm_compute; reflexivity]].
    intros idx Hi. inversion Hi as [|i n l l' H1 H2]; subst. inversion H2 as [|j m l2 l2' H3 H4]; subst. inversion H4; subst.
    destruct i as [|[|i]]; [| |cbn in H1; lia]; (destruct j as [|[|j]]; [| |cbn in H3; lia]); eexists; vm_compute; reflexivity. }
  split; [vm_compute; reflexivity|]. split; [vm_compute; reflexivity|]. split; [apply Permutation_refl|].
  intros i j pi pj x y Hij Hi Hj Hx Hy.
  destruct i as [|[|[|[|i]]]]; cbn in Hi; try discriminate; try (destruct i; discriminate); injection Hi as <-;
  (destruct j as [|[|[|[|j]]]]; cbn in Hj; try discriminate; try (destruct j; discriminate); injection Hj as <-; try lia);
  cbn in Hx, Hy; injection Hx as <-; injection Hy as <-; split; (reflexivity || intros H; lia).
Qed.

(* ---- C34 ------------------------------------------------------------------ *)

(* the selection loop of ndarray.partition: ends (within n rounds), stays in bounds,
   for every list, every order and every k in range *)
Theorem C34_select : forall {K} (leb : K -> K -> bool) l k, total_preorder leb -> k < length l ->
  exists r, partition_select (fun x y => negb (leb y x)) l k = Ok r /\ partitioned leb k l r.
Proof. intros K leb l k TP HK. apply partition_select_spec; assumption. Qed.

(* in a partitioned list the k-th entry is the k-th smallest *)
Theorem C34_kth : forall {K} (leb : K -> K -> bool) l r k, total_preorder leb -> partitioned leb k l r ->
  exists v, nth_error r k = Some v /\ kth_smallest leb k l v.
Proof.
  intros K leb l r k TP H. pose proof H as (_ & v & Hv & _). exists v. split; [exact Hv|].
  apply (partitioned_kth leb TP l r k v); assumption.
Qed.

(* partition / argpartition along an axis; sel and selI stand for the standard
   library's select_nth_unstable_by, whose contract is assumed *)
Theorem C34_partition : forall {V} (sel : (V -> V -> bool) -> list V -> nat -> list V) selI leb buf typed listed a kth axis n,
  select_contract sel -> select_contract selI -> total_preorder leb ->
  wf buf a -> nth_error (a_shape a) axis = Some n -> kth < n ->
  exists out, partition sel selI leb buf typed listed a kth (Some axis) = Ok (a_shape a, out) /\ length out = size a /\
    forall oi lv, inb oi (remove_at axis (a_shape a)) -> lane buf a axis oi = map Some lv ->
      exists r, lane out (fresh (a_shape a) (a_item a)) axis oi = map Some r /\ partitioned leb kth lv r.
Proof. intros. cbn [partition]. eapply partition_axis_spec; eassumption. Qed.

Theorem C34_argpartition : forall {V} (sel : (V -> V -> bool) -> list V -> nat -> list V) selI (leb : V -> V -> bool) buf a kth axis n,
  select_contract sel -> select_contract selI -> total_preorder leb ->
  wf buf a -> nth_error (a_shape a) axis = Some n -> kth < n ->
  exists out, argpartition selI leb buf a kth (Some axis) = Ok (a_shape a, out) /\ length out = size a /\
    forall oi lv, inb oi (remove_at axis (a_shape a)) -> lane buf a axis oi = map Some lv ->
      exists p r, lane out (fresh (a_shape a) 8) axis oi = map Some (map Z.of_nat p) /\
        Permutation p (seq 0 (length lv)) /\ map (nth_error lv) p = map Some r /\ partitioned leb kth lv r.
Proof. intros. cbn [argpartition]. eapply argpartition_axis_spec; eassumption. Qed.

(* a.partition(k), in place on the flattened array: memory outside the array is
   untouched.  Values travel as f64. *)
Theorem C34_method_partial : forall {V K} (rd : V -> K) (wr : K -> V) leb buf a kth vals,
  total_preorder leb -> wf buf a -> injective a -> roundtrips rd wr buf a -> kth < size a -> elems buf a = map Some vals ->
  exists buf' r, py_partition rd wr (fun x y => negb (leb y x)) buf a kth = Ok buf' /\ length buf' = length buf /\
    elems buf' a = map Some r /\ partitioned (keyed rd leb) kth vals r /\
    forall ad, (forall idx, inb idx (a_shape a) -> addr a idx <> ad) -> load buf' (a_item a) ad = load buf (a_item a) ad.
Proof.
  intros V K rd wr leb buf a kth vals TP W HI HR HK E.
  destruct (py_partition_spec rd wr leb TP buf a kth vals W HI HK E) as (buf' & ks & EP & LP & HP & EV & HU).
  exists buf', (map wr ks). split; [exact EP|]. split; [exact LP|]. split; [exact EV|]. split; [|exact HU].
  assert (HRL : forall v, In v vals -> wr (rd v) = v) by (intros v Hv; apply HR; rewrite E; apply in_map, Hv).
  destruct HP as (PP & v & Hv & HL & HG).
  assert (HB : forall k, In k ks -> rd (wr k) = k).
  { intros k Hk. apply (Permutation_in _ (Permutation_sym PP)) in Hk. apply in_map_iff in Hk as (x & <- & Hx). rewrite HRL by exact Hx. reflexivity. }
  split.
  - apply (Permutation_map wr) in PP. rewrite map_map in PP. rewrite (map_ext_in _ id) in PP by exact HRL. rewrite map_id in PP. exact PP.
  - exists (wr v). rewrite nth_error_map', Hv. split; [reflexivity|].
    split; intros i x Hi Hx; rewrite nth_error_map' in Hx; destruct (nth_error ks i) as [y|] eqn:Ey; try discriminate;
      injection Hx as <-; unfold keyed; rewrite (HB v (nth_error_In _ _ Hv)), (HB y (nth_error_In _ _ Ey)); eauto.
Qed.

Theorem C34_argmethod : forall {V K} (rd : V -> K) leb buf a kth vals,
  total_preorder leb -> wf buf a -> kth < size a -> elems buf a = map Some vals ->
  exists p ks, py_argpartition rd (fun x y => negb (leb y x)) buf a kth = Ok p /\ Permutation p (seq 0 (size a)) /\
    map (nth_error (map rd vals)) p = map Some ks /\ partitioned leb kth (map rd vals) ks.
Proof. intros V K rd leb buf a kth vals TP. apply py_argpartition_spec; exact TP. Qed.

Example C34_nonvacuous :
  partition_select Z.ltb [5; 1; 4; 2; 3; 2; 9; 0]%Z 3 = Ok [1; 0; 2; 2; 3; 4; 9; 5]%Z /\
  py_partition f64_of_int (sat int64) Z.ltb [7; 100; 3; 101; 5; 102]%Z (mkArr 32 [3] [-16]%Z 8 false false) 0
    = Ok [5; 100; 7; 101; 3; 102]%Z /\
  (forall K, select_contract (fun leb (l : list K) (k : nat) => stable_sort leb l)) /\
  partition (fun leb l k => stable_sort leb l) (fun leb l k => stable_sort leb l) Z.leb [4; 3; 2; 1; 9; 0]%Z true true (fresh [2; 3] 8) 1 (Some 1)
    = Ok ([2; 3], [2; 3; 4; 0; 1; 9]%Z).
Proof.
  split; [vm_compute; reflexivity|]. split; [vm_compute; reflexivity|]. split; [|vm_compute; reflexivity].
  intros K leb l k HP HK. apply stable_sort_select; assumption.
Qed.

(* a.partition(0) on int64: the values themselves change *)
Theorem C34_method_int64_refuted : exists buf a vals r, wf buf a /\ injective a /\ elems buf a = map Some vals /\
  Forall (representable int64) vals /\
  py_partition f64_of_int (sat int64) Z.ltb buf a 0 = Ok r /\ ~ Permutation vals r.
Proof.
  exists [9007199254740993; 0]%Z, (fresh [2] 8), [9007199254740993; 0]%Z, [0; 9007199254740992]%Z.
  split; [apply fresh_wf; [lia|cbn; lia|reflexivity]|]. split.
  { intros i j Hi Hj E. inversion Hi as [|i0 n l l' H1 H2]; subst. inversion H2; subst.
    inversion Hj as [|j0 m l2 l2' H3 H4]; subst. inversion H4; subst. unfold addr, byte_offset_for in E. cbn in E. f_equal. lia. }
  split; [vm_compute; reflexivity|]. split; [repeat constructor; vm_compute; discriminate|].
  split; [vm_compute; reflexivity|]. intros HP.
  assert (H : In 9007199254740993%Z [0; 9007199254740992]%Z) by (apply (Permutation_in _ HP); left; reflexivity).
  destruct H as [H|[H|[]]]; discriminate H.
Qed.
(* a.partition(k) on a 2-D array works on the flattened array, not on the rows:
   the second row of [[9, 8], [1, 0]] ends up with none of its own values *)
Theorem C34_method_rows_refuted : exists buf a r, wf buf a /\ a_shape a = [2; 2] /\
  py_partition f64_of_int (sat int64) Z.ltb buf a 0 = Ok r /\
  ~ Permutation (skipn 2 buf) (skipn 2 r).
Proof.
  exists [9; 8; 1; 0]%Z, (fresh [2; 2] 8), [0; 1; 8; 9]%Z.
  split; [apply fresh_wf; [lia|cbn; lia|reflexivity]|]. split; [reflexivity|]. split; [vm_compute; reflexivity|].
  cbn [skipn]. intros HP. assert (H : In 1%Z [8; 9]%Z) by (apply (Permutation_in _ HP); left; reflexivity).
  destruct H as [H|[H|[]]]; discriminate H.
Qed.

(* ---- C35 ------------------------------------------------------------------ *)

(* searchsorted(a, v): no conversion when the dtypes agree *)
Theorem C35_insertion : forall {V} (leb : V -> V -> bool) item use_left (abuf : list V) a (vbuf : list V) v n avals vvals,
  total_preorder leb -> wf abuf a -> wf vbuf v -> a_shape a = [n] -> (0 < item)%Z ->
  (Z.of_nat (size a) * item < 2 ^ 63)%Z -> (Z.of_nat (size v) * item < 2 ^ 63)%Z ->
  elems abuf a = map Some avals -> elems vbuf v = map Some vvals -> ascending leb avals ->
  exists out, searchsorted (cmp_of leb) None None item use_left abuf a vbuf v = Ok (a_shape v, out) /\
    Forall2 (fun x i => if use_left then insertion_left leb avals x i else insertion_right leb avals x i) vvals out.
Proof.
  intros V leb item use_left abuf a vbuf v n avals vvals TP Wa Wv HS Hi B1 B2 Ea Ev HA.
  destruct (searchsorted_spec leb None None item use_left abuf a vbuf v n avals vvals TP Wa Wv HS Hi B1 B2 Ea Ev) as (out & E & F).
  - cbn [conv_of]. rewrite map_id. exact HA.
  - exists out. split; [exact E|]. cbn [conv_of] in F. rewrite map_id in F. exact F.
Qed.
(* with conversions: correct for the converted values *)
Theorem C35_insertion_mixed_partial : forall {V} (leb : V -> V -> bool) convA convV item use_left (abuf : list V) a (vbuf : list V) v n avals vvals,
  total_preorder leb -> wf abuf a -> wf vbuf v -> a_shape a = [n] -> (0 < item)%Z ->
  (Z.of_nat (size a) * item < 2 ^ 63)%Z -> (Z.of_nat (size v) * item < 2 ^ 63)%Z ->
  elems abuf a = map Some avals -> elems vbuf v = map Some vvals -> ascending leb (map (conv_of convA) avals) ->
  exists out, searchsorted (cmp_of leb) convA convV item use_left abuf a vbuf v = Ok (a_shape v, out) /\
    Forall2 (fun x i => if use_left then insertion_left leb (map (conv_of convA) avals) (conv_of convV x) i
                        else insertion_right leb (map (conv_of convA) avals) (conv_of convV x) i) vvals out.
Proof. intros. eapply searchsorted_spec; eassumption. Qed.
(* the insertion point is unique *)
Theorem C35_left_unique : forall {K} (leb : K -> K -> bool) l v i j,
  insertion_left leb l v i -> insertion_left leb l v j -> i = j.
Proof. intros K leb l v i j. apply insertion_left_unique. Qed.
Theorem C35_right_unique : forall {K} (leb : K -> K -> bool) l v i j,
  insertion_right leb l v i -> insertion_right leb l v j -> i = j.
Proof. intros K leb l v i j. apply insertion_right_unique. Qed.

Example C35_nonvacuous :
  let a := mkArr 40 [3] [-16]%Z 8 false false in let buf := [0; 7; 0; 4; 0; 4]%Z in
  elems buf a = map Some [4; 4; 7]%Z /\ ascending Z.leb [4; 4; 7]%Z /\
  searchsorted (cmp_of Z.leb) None None 8 true buf a [4; 5; 3; 9]%Z (fresh [2; 2] 8) = Ok ([2; 2], [0; 2; 0; 3]) /\
  searchsorted (cmp_of Z.leb) None None 8 false buf a [4; 5; 3; 9]%Z (fresh [2; 2] 8) = Ok ([2; 2], [2; 2; 0; 3]).
Proof. split; [vm_compute; reflexivity|]. split; [repeat constructor|]. split; vm_compute; reflexivity. Qed.

(* a.searchsorted(2**53) on the int64 array [2**53 + 1]: scalars are searched for
   as float64, the array is converted, and side='right' gives 1 instead of 0 *)
Theorem C35_scalar_int64_refuted : exists buf a, wf buf a /\ elems buf a = map Some [9007199254740993]%Z /\
  searchsorted (cmp_of Z.leb) (Some f64_of_int) None 8 false buf a [9007199254740992]%Z (fresh [1] 8) = Ok ([1], [1]) /\
  insertion_right Z.leb [9007199254740993]%Z 9007199254740992%Z 0.
Proof.
  exists [9007199254740993]%Z, (fresh [1] 8). split; [apply fresh_wf; [lia|cbn; lia|reflexivity]|].
  split; [vm_compute; reflexivity|]. split; [vm_compute; reflexivity|]. split; [lia|]. split; [intros j x H; lia|].
  intros [|j] x _ H; [injection H as <-; reflexivity|destruct j; discriminate].
Qed.

(* ---- C36 ------------------------------------------------------------------ *)

(* the documented bins: increasing edges, right=False: e[i-1] <= x < e[i];
   right=True: e[i-1] < x <= e[i]; decreasing edges, right=False:
   e[i-1] > x >= e[i]; right=True: e[i-1] >= x > e[i] *)
Definition documented_bin {K} (leb : K -> K -> bool) (right decreasing : bool) (bins : list K) (x : K) (i : nat) : Prop :=
  match decreasing, right with
  | false, false => in_bin (fun e => leb e x = true) (fun e => leb e x = false) bins i
  | false, true => in_bin (fun e => leb x e = false) (fun e => leb x e = true) bins i
  | true, false => in_bin (fun e => leb e x = false) (fun e => leb e x = true) bins i
  | true, true => in_bin (fun e => leb x e = true) (fun e => leb x e = false) bins i
  end.

Theorem C36_increasing : forall {V W K} (rdx : V -> K) (rdb : W -> K) leb right (xbuf : list V) x (bbuf : list W) b n xvals bvals,
  total_preorder leb -> wf xbuf x -> wf bbuf b -> a_shape b = [n] ->
  elems xbuf x = map Some xvals -> elems bbuf b = map Some bvals -> ascending leb (map rdb bvals) ->
  exists out, digitize rdx rdb leb right xbuf x bbuf b = Ok (a_shape x, out) /\
    Forall2 (fun v i => documented_bin leb right false (map rdb bvals) (rdx v) i) xvals out.
Proof.
  intros V W K rdx rdb leb right xbuf x bbuf b n xvals bvals TP Wx Wb HS Ex Eb HA.
  destruct (digitize_spec rdx rdb leb TP right xbuf x bbuf b n xvals bvals Wx Wb HS Ex Eb false) as (out & E & F); [left; auto|].
  exists out. split; [exact E|]. destruct right; exact F.
Qed.
(* decreasing edges: the bin of the opposite tie side *)
Theorem C36_decreasing_partial : forall {V W K} (rdx : V -> K) (rdb : W -> K) leb right (xbuf : list V) x (bbuf : list W) b n xvals bvals,
  total_preorder leb -> wf xbuf x -> wf bbuf b -> a_shape b = [n] ->
  elems xbuf x = map Some xvals -> elems bbuf b = map Some bvals ->
  ascending (fun p q => leb q p) (map rdb bvals) -> ~ ascending leb (map rdb bvals) ->
  exists out, digitize rdx rdb leb right xbuf x bbuf b = Ok (a_shape x, out) /\
    Forall2 (fun v i => documented_bin leb (negb right) true (map rdb bvals) (rdx v) i) xvals out /\
    ((forall v e, In v xvals -> In e bvals -> ~ (leb (rdx v) (rdb e) = true /\ leb (rdb e) (rdx v) = true)) ->
     Forall2 (fun v i => documented_bin leb right true (map rdb bvals) (rdx v) i) xvals out).
Proof.
  intros V W K rdx rdb leb right xbuf x bbuf b n xvals bvals TP Wx Wb HS Ex Eb HD HN.
  destruct (digitize_spec rdx rdb leb TP right xbuf x bbuf b n xvals bvals Wx Wb HS Ex Eb true) as (out & E & F); [right; auto|].
  exists out. split; [exact E|]. split; [destruct right; exact F|]. intros HT. clear E Ex. destruct TP as [TT TR].
  induction F as [|v i vs is H F IH]; constructor; [|apply IH; intros v' e' Hv; apply HT; right; exact Hv].
  assert (HT' : forall j e, nth_error (map rdb bvals) j = Some e -> leb (rdx v) e = negb (leb e (rdx v))).
  { intros j e He. rewrite nth_error_map' in He. destruct (nth_error bvals j) as [w|] eqn:Ew; [|discriminate]. injection He as <-.
    specialize (HT v w (or_introl eq_refl) (nth_error_In _ _ Ew)). specialize (TT (rdx v) (rdb w)).
    destruct (leb (rdx v) (rdb w)), (leb (rdb w) (rdx v)); try reflexivity.
    - exfalso. apply HT. auto.
    - destruct TT; discriminate. }
  destruct H as (H1 & H2 & H3). unfold documented_bin. destruct right; (split; [exact H1|]; split; intros j e Hj He;
    [specialize (H2 j e Hj He)|specialize (H3 j e Hj He)]; specialize (HT' j e He); cbv beta in *;
    destruct (leb (rdx v) e), (leb e (rdx v)); cbn in *; congruence).
Qed.

Example C36_nonvacuous :
  digitize id id Z.leb false [0; 3; 4; 9]%Z (fresh [4] 8) [1; 3; 5]%Z (fresh [3] 8) = Ok ([4], [0; 2; 2; 3]) /\
  digitize id id Z.leb true [0; 3; 4; 9]%Z (fresh [4] 8) [1; 3; 5]%Z (fresh [3] 8) = Ok ([4], [0; 1; 2; 3]) /\
  digitize id id Z.leb false [0; 2; 4; 9]%Z (fresh [4] 8) [5; 3; 1]%Z (fresh [3] 8) = Ok ([4], [3; 2; 1; 0]).
Proof. repeat split; vm_compute; reflexivity. Qed.

(* digitize([3], [5, 3, 1]): documented bin 1 (5 > 3 >= 3), computed 2 *)
Theorem C36_decreasing_ties_refuted :
  digitize id id Z.leb false [3]%Z (fresh [1] 8) [5; 3; 1]%Z (fresh [3] 8) = Ok ([1], [2]) /\
  documented_bin Z.leb false true [5; 3; 1]%Z 3%Z 1 /\ ~ documented_bin Z.leb false true [5; 3; 1]%Z 3%Z 2.
Proof.
  split; [vm_compute; reflexivity|]. split.
  - split; [cbn; lia|]. split; intros [|[|[|j]]] e Hj He; try lia; cbn in He; try (destruct j; discriminate); injection He as <-; reflexivity.
  - intros (_ & H & _). specialize (H 1 3%Z ltac:(lia) eq_refl). cbn in H. discriminate.
Qed.
(* edges in a 2-D array are accepted, and the last one is looked up n - 1 rows away:
   outside the buffer *)
Theorem C36_bins_2d_refuted : exists bbuf b, wf bbuf b /\ a_shape b = [2; 2] /\
  digitize id id Z.leb false [3]%Z (fresh [1] 8) bbuf b = Fault.
Proof.
  exists [1; 2; 3; 4]%Z, (fresh [2; 2] 8). split; [apply fresh_wf; [lia|cbn; lia|reflexivity]|].
  split; [reflexivity|vm_compute; reflexivity].
Qed.

(* ---- C37 ------------------------------------------------------------------ *)

(* [close] is the test |x - y| < EPSILON; the statements hold on arrays where it
   separates different values (integers, floats that are not within 2^-52) *)
Theorem C37_unique_partial : forall {V K} (rd : V -> K) (wr : K -> V) leb close buf f64 a vals,
  total_order leb -> wf buf a -> elems buf a = map Some vals ->
  (forall x y, In x (map rd vals) -> In y (map rd vals) -> (close x y = true <-> x = y)) ->
  exists ks, unique rd wr leb buf close f64 a = Ok (map wr ks) /\ strictly_ascending leb ks /\
    forall x, In x ks <-> In x (map rd vals).
Proof. intros V K rd wr leb close buf f64 a vals TO. apply unique_spec; exact TO. Qed.

Lemma total_count {K} (close : K -> K -> bool) (l : list K) : forall ks, NoDup ks ->
  (forall x y, In x l -> In y ks -> (close x y = true <-> x = y)) ->
  list_sum (map (fun k => length (filter (fun y => close y k) l)) ks) = length (filter (fun y => existsb (close y) ks) l).
Proof.
  induction ks as [|k ks IH]; intros ND HC.
  - cbn. induction l as [|x l IHl]; [reflexivity|]. apply IHl. intros y z Hy Hz. destruct Hz.
  - inversion ND as [|? ? Hni ND']; subst. cbn [map list_sum fold_right]. fold (list_sum (map (fun k0 => length (filter (fun y => close y k0) l)) ks)).
    rewrite IH by (assumption || (intros x y Hx Hy; apply HC; [exact Hx|right; exact Hy])).
    clear IH ND ND'. induction l as [|x l IHl]; [reflexivity|].
    assert (HC' : forall x0 y, In x0 l -> In y (k :: ks) -> close x0 y = true <-> x0 = y) by (intros; apply HC; [right|]; assumption).
    specialize (IHl HC'). cbn [existsb] in IHl. cbn [filter existsb].
    destruct (close x k) eqn:E1; destruct (existsb (close x) ks) eqn:E2; cbn [orb length] in *; try lia.
    exfalso. apply HC in E1; [|left; reflexivity|left; reflexivity]. apply existsb_exists in E2 as (z & Hz & E2).
    apply HC in E2; [|left; reflexivity|right; exact Hz]. congruence.
Qed.

(* with return_inverse, return_index and return_counts: values[inverse] is a,
   a[index] is values (index being the first position), the counts count and add
   up to a.size *)
Theorem C37_unique_all_partial : forall {V K} (rd : V -> K) (wr : K -> V) leb close buf f64 a vals,
  total_order leb -> wf buf a -> elems buf a = map Some vals ->
  (forall x y, In x (map rd vals) -> In y (map rd vals) -> (close x y = true <-> x = y)) ->
  exists ks firsts inv counts, unique_all rd wr leb buf close f64 a = Ok (map wr ks, firsts, inv, counts) /\
    strictly_ascending leb ks /\ (forall x, In x ks <-> In x (map rd vals)) /\
    map (nth_error ks) inv = map Some (map rd vals) /\
    map (nth_error (map rd vals)) firsts = map Some ks /\
    (forall u f i x, nth_error firsts u = Some f -> nth_error ks u = Some x -> nth_error (map rd vals) i = Some x -> f <= i) /\
    counts = map (fun x => length (filter (fun y => close y x) (map rd vals))) ks /\
    list_sum counts = size a.
Proof.
  intros V K rd wr leb close buf f64 a vals TO W E HC.
  destruct (unique_all_spec rd wr leb close buf TO f64 a vals W E HC) as (ks & firsts & inv & counts & EU & SA & HI & LF & LC & LI & HInv & HF).
  pose proof (elems_length buf a vals E) as LV.
  exists ks, firsts, inv, counts. split; [exact EU|]. split; [exact SA|]. split; [exact HI|].
  assert (EC : counts = map (fun x => length (filter (fun y => close y x) (map rd vals))) ks).
  { apply nth_error_ext. intros u. rewrite nth_error_map'. destruct (nth_error ks u) as [x|] eqn:Ex.
    - destruct (HF u x Ex) as (f & _ & _ & _ & H). exact H.
    - apply nth_error_None. apply nth_error_None in Ex. lia. }
  split; [|split; [|split; [|split; [exact EC|]]]].
  - apply nth_error_ext. intros i. rewrite !nth_error_map'. destruct (nth_error vals i) as [v|] eqn:Ev.
    + destruct (HInv i (rd v)) as (u & Hu & Hk); [rewrite nth_error_map', Ev; reflexivity|]. rewrite Hu. cbn. rewrite Hk. reflexivity.
    + apply nth_error_None in Ev. rewrite (proj2 (nth_error_None inv i)) by lia. reflexivity.
  - apply nth_error_ext. intros u. rewrite (nth_error_map' _ _ u), (nth_error_map' Some ks u). destruct (nth_error ks u) as [x|] eqn:Ex.
    + destruct (HF u x Ex) as (f & Hf & Hx & _). rewrite Hf. cbn [option_map]. rewrite Hx. reflexivity.
    + apply nth_error_None in Ex. rewrite (proj2 (nth_error_None firsts u)) by lia. reflexivity.
  - intros u f i x Hf Hk Hi. destruct (HF u x Hk) as (f' & Hf' & _ & Hmin & _). assert (f' = f) as -> by congruence. exact (Hmin i Hi).
  - rewrite EC. rewrite total_count.
    + rewrite <- LV, <- (map_length rd vals). f_equal. clear - HI HC. 
      assert (G : forall m, (forall x, In x m -> In x (map rd vals)) -> filter (fun y => existsb (close y) ks) m = m).
      { induction m as [|x m IH]; intros Hm; [reflexivity|]. cbn [filter].
        assert (existsb (close x) ks = true) as ->.
        { apply existsb_exists. exists x. split; [apply HI, Hm; left; reflexivity|apply HC; try reflexivity; apply Hm; left; reflexivity]. }
        rewrite IH; [reflexivity|]. intros y Hy. apply Hm. right; exact Hy. }
      apply G. auto.
    + destruct TO as [[TT TR] _]. clear - SA TT. unfold strictly_ascending in SA. induction SA as [|x l SA IH HF]; constructor; [|exact IH].
      intros Hx. rewrite Forall_forall in HF. specialize (HF x Hx). destruct (TT x x); congruence.
    + intros x y Hx Hy. apply HC; [exact Hx|apply HI, Hy].
Qed.

Definition int_close (x y : Z) : bool := (x =? y)%Z.
Example C37_nonvacuous :
  unique f64_of_int (sat int64) Z.leb [3; 1; 3; 2; 1; 3]%Z int_close false (mkArr 0 [2; 3] [8; 16]%Z 8 false true) = Ok [1; 2; 3]%Z /\
  unique_all f64_of_int (sat int64) Z.leb [3; 1; 3; 2; 1; 3]%Z int_close false (fresh [6] 8)
    = Ok ([1; 2; 3]%Z, [1; 3; 0], [2; 0; 2; 1; 0; 2], [2; 1; 3]).
Proof. split; vm_compute; reflexivity. Qed.

(* doubles, axiom-free *)
Definition sf_sub := SFsub 53 1024.
Definition sf_eps : spec_float := S754_finite false 4503599627370496 (-104).   (* 2^-52 *)
Definition sf_close (x y : spec_float) : bool := SFltb (SFabs (sf_sub x y)) sf_eps.
Definition sf_tiny : spec_float := S754_finite false 4503599627370496 (-112).  (* 2^-60 *)

(* unique([0.0, 2^-60]) on float64 drops the second value *)
Theorem C37_close_floats_refuted :
  unique id id SFleb [S754_zero false; sf_tiny] sf_close true (fresh [2] 8) = Ok [S754_zero false] /\
  SFeqb (S754_zero false) sf_tiny = false.
Proof. split; vm_compute; reflexivity. Qed.
(* unique of int64 values: 2^53 and 2^53 + 1 are merged *)
Theorem C37_int64_refuted :
  unique f64_of_int (sat int64) Z.leb [9007199254740992; 9007199254740993]%Z int_close false (fresh [2] 8)
    = Ok [9007199254740992]%Z.
Proof. vm_compute; reflexivity. Qed.

(* ---- C38 ------------------------------------------------------------------ *)

Definition set_meaning (op : setop) {K} (x : K) (l m : list K) : Prop :=
  match op with
  | SInter => In x l /\ In x m
  | SUnion => In x l \/ In x m
  | SDiff => In x l /\ ~ In x m
  | SXor => (In x l /\ ~ In x m) \/ (In x m /\ ~ In x l)
  end.

(* on the f64 keys of the operands *)
Theorem C38_set_ops : forall {K V W R} (leb eqb : K -> K -> bool) (rd1 : V -> K) (rd2 : W -> K) (wr : K -> R) op p1 p2
    buf1 buf2 a1 a2 vals1 vals2,
  total_order leb -> (forall x y, eqb x y = true <-> x = y) ->
  wf buf1 a1 -> wf buf2 a2 -> elems buf1 a1 = map Some vals1 -> elems buf2 a2 = map Some vals2 ->
  exists ks, set_op leb eqb rd1 rd2 wr buf1 buf2 op p1 p2 a1 a2 = Ok (map wr ks) /\ strictly_ascending leb ks /\
    forall x, In x ks <-> set_meaning op x (map rd1 vals1) (map rd2 vals2).
Proof.
  intros K V W R leb eqb rd1 rd2 wr op p1 p2 buf1 buf2 a1 a2 vals1 vals2 TO HE W1 W2 E1 E2.
  destruct (set_op_spec leb eqb TO rd1 rd2 wr op p1 p2 buf1 buf2 a1 a2 vals1 vals2 W1 W2 E1 E2 HE) as (ks & E & S & H).
  exists ks. split; [exact E|]. split; [exact S|]. intros x. rewrite H. unfold merge_sem, set_meaning. destruct op; tauto.
Qed.
(* integers up to 2^53: the sets of the values themselves *)
Theorem C38_int_set_ops_partial : forall t (buf1 buf2 : list Z) a1 a2 vals1 vals2 op p1 p2,
  wf buf1 a1 -> wf buf2 a2 -> elems buf1 a1 = map Some vals1 -> elems buf2 a2 = map Some vals2 ->
  Forall (fun v => representable t v /\ (Z.abs v <= 2 ^ 53)%Z) (vals1 ++ vals2) ->
  exists ks, set_op Z.leb Z.eqb f64_of_int f64_of_int (sat t) buf1 buf2 op p1 p2 a1 a2 = Ok ks /\ strictly_ascending Z.leb ks /\
    forall x, In x ks <-> set_meaning op x vals1 vals2.
Proof.
  intros t buf1 buf2 a1 a2 vals1 vals2 op p1 p2 W1 W2 E1 E2 HF.
  destruct (C38_set_ops Z.leb Z.eqb f64_of_int f64_of_int (sat t) op p1 p2 buf1 buf2 a1 a2 vals1 vals2 Z_total_order Z.eqb_eq W1 W2 E1 E2)
    as (ks & E & S & H).
  rewrite Forall_forall in HF.
  assert (M1 : map f64_of_int vals1 = vals1).
  { rewrite <- (map_id vals1) at 2. apply map_ext_in. intros v Hv. apply f64_of_int_small, HF, in_or_app; left; exact Hv. }
  assert (M2 : map f64_of_int vals2 = vals2).
  { rewrite <- (map_id vals2) at 2. apply map_ext_in. intros v Hv. apply f64_of_int_small, HF, in_or_app; right; exact Hv. }
  rewrite M1, M2 in H.
  assert (MS : map (sat t) ks = ks).
  { rewrite <- (map_id ks) at 2. apply map_ext_in. intros v Hv. apply sat_id. apply H in Hv.
    apply HF, in_or_app. unfold set_meaning in Hv. destruct op; tauto. }
  rewrite MS in E. exists ks. split; [exact E|]. split; [exact S|exact H].
Qed.
Theorem C38_isin : forall {K V W} (biteq : K -> K -> bool) (rd1 : V -> K) (rd2 : W -> K) invert p1 p2 buf1 buf2 el test vals tv,
  (forall x y, biteq x y = true <-> x = y) ->
  wf buf1 el -> wf buf2 test -> elems buf1 el = map Some vals -> elems buf2 test = map Some tv ->
  exists out, isin biteq rd1 rd2 buf1 buf2 invert p1 p2 el test = Ok (a_shape el, out) /\
    Forall2 (fun v b => (b = true <-> (if invert then ~ In (rd1 v) (map rd2 tv) else In (rd1 v) (map rd2 tv)))) vals out.
Proof. intros K V W biteq rd1 rd2 invert p1 p2 buf1 buf2 el test vals tv HE W1 W2 E1 E2. apply isin_spec; assumption. Qed.

Example C38_nonvacuous :
  set_op Z.leb Z.eqb f64_of_int f64_of_int (sat int64) [3; 1; 2; 3]%Z [5; 3; 2]%Z SXor true true (fresh [4] 8) (fresh [3] 8) = Ok [1; 5]%Z /\
  set_op Z.leb Z.eqb f64_of_int f64_of_int (sat int64) [3; 1; 2; 3]%Z [5; 3; 2]%Z SInter true true (fresh [2; 2] 8) (fresh [3] 8) = Ok [2; 3]%Z /\
  set_op Z.leb Z.eqb f64_of_int f64_of_int (sat int64) [3; 1; 2; 3]%Z [5; 3; 2]%Z SUnion true true (fresh [4] 8) (fresh [3] 8) = Ok [1; 2; 3; 5]%Z /\
  set_op Z.leb Z.eqb f64_of_int f64_of_int (sat int64) [3; 1; 2; 3]%Z [5; 3; 2]%Z SDiff true true (fresh [4] 8) (fresh [3] 8) = Ok [1]%Z /\
  isin Z.eqb f64_of_int f64_of_int [3; 1; 2; 3]%Z [5; 3; 2]%Z false true true (fresh [2; 2] 8) (fresh [3] 8) = Ok ([2; 2], [true; false; true; true]).
Proof. repeat split; vm_compute; reflexivity. Qed.

(* 2^53 + 1 is reported to be in [2^53]; their union has one element *)
Theorem C38_int64_refuted :
  isin Z.eqb f64_of_int f64_of_int [9007199254740993]%Z [9007199254740992]%Z false true true (fresh [1] 8) (fresh [1] 8) = Ok ([1], [true]) /\
  set_op Z.leb Z.eqb f64_of_int f64_of_int (sat int64) [9007199254740993]%Z [9007199254740992]%Z SUnion true true (fresh [1] 8) (fresh [1] 8)
    = Ok [9007199254740992]%Z.
Proof. split; vm_compute; reflexivity. Qed.
(* isin compares bit patterns: -0.0 is not found among [0.0], though they are equal *)
Definition sf_biteq (x y : spec_float) : bool :=
  match x, y with
  | S754_zero s, S754_zero s' => Bool.eqb s s'
  | S754_infinity s, S754_infinity s' => Bool.eqb s s'
  | S754_nan, S754_nan => true
  | S754_finite s m e, S754_finite s' m' e' => Bool.eqb s s' && Pos.eqb m m' && Z.eqb e e'
  | _, _ => false
  end.
Theorem C38_isin_negative_zero_refuted :
  isin sf_biteq id id [S754_zero true] [S754_zero false] false true true (fresh [1] 8) (fresh [1] 8) = Ok ([1], [false]) /\
  SFeqb (S754_zero true) (S754_zero false) = true.
Proof. split; vm_compute; reflexivity. Qed.

(* ---- C39 ------------------------------------------------------------------ *)

(* keys: 1-D arrays of n elements, compared by the order of their dtype *)
Theorem C39_lexsort : forall {V} (keys : list (lkey V)) (lebs : list (V -> V -> bool)) valss n, keys <> [] ->
  Forall (fun k => wf (k_buf k) (k_arr k) /\ a_shape (k_arr k) = [n]) keys ->
  Forall2 (fun k leb => total_preorder leb /\ forall x y, k_cmp k x y = cmp_of leb x y) keys lebs ->
  Forall2 (fun k vals => elems (k_buf k) (k_arr k) = map Some vals) keys valss ->
  exists p, lexsort keys = Ok p /\ Permutation p (seq 0 n) /\
    StronglySorted (lex_before (rev (map (fun q => compare_at (fst q) (snd q)) (combine lebs valss)))) p.
Proof. intros V keys lebs valss n. apply lexsort_spec. Qed.

Example C39_nonvacuous :
  let k1 := mkKey _ [3; 1; 2; 1; 0]%Z (fresh [5] 8) (cmp_of Z.leb) in
  let k2 := mkKey _ [1; 9; 0; 9; 1; 9; 0; 9; 1; 9]%Z (mkArr 0 [5] [16]%Z 8 false false) (cmp_of Z.leb) in
  lexsort [k1; k2] = Ok [1; 3; 4; 2; 0] /\ lexsort [k2] = Ok [1; 3; 0; 2; 4] /\
  elems (k_buf k2) (k_arr k2) = map Some [1; 0; 1; 0; 1]%Z.
Proof. repeat split; vm_compute; reflexivity. Qed.

Print Assumptions C32_sort_partial.
Print Assumptions C32_sort_flat_partial.
Print Assumptions C32_sort_int_partial.
Print Assumptions C32_sort_int64_refuted.
Print Assumptions C32_sort_flat_strided_refuted.
Print Assumptions C33_argsort_partial.
Print Assumptions C33_argsort_flat_partial.
Print Assumptions C33_unique.
Print Assumptions C33_argsort_int64_refuted.
Print Assumptions C33_argsort_flat_fortran_refuted.
Print Assumptions C34_select.
Print Assumptions C34_kth.
Print Assumptions C34_partition.
Print Assumptions C34_argpartition.
Print Assumptions C34_method_partial.
Print Assumptions C34_argmethod.
Print Assumptions C34_method_int64_refuted.
Print Assumptions C34_method_rows_refuted.
Print Assumptions C35_insertion.
Print Assumptions C35_insertion_mixed_partial.
Print Assumptions C35_left_unique.
Print Assumptions C35_right_unique.
Print Assumptions C35_scalar_int64_refuted.
Print Assumptions C36_increasing.
Print Assumptions C36_decreasing_partial.
Print Assumptions C36_decreasing_ties_refuted.
Print Assumptions C36_bins_2d_refuted.
Print Assumptions C37_unique_partial.
Print Assumptions C37_unique_all_partial.
Print Assumptions C37_close_floats_refuted.
Print Assumptions C37_int64_refuted.
Print Assumptions C38_set_ops.
Print Assumptions C38_int_set_ops_partial.
Print Assumptions C38_isin.
Print Assumptions C38_int64_refuted.
Print Assumptions C38_isin_negative_zero_refuted.
Print Assumptions C39_lexsort.
