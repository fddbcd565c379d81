From Verif Require Import Base Lists Arr_Spec Arr_Model Arr_Wf Arr_Proofs Copy_Model Copy_Proofs
  Char_Spec Char_Model.
Local Open Scope nat_scope.

(* ---- memory ---- *)
Lemma pad_length w t : length t <= w -> length (pad w t) = w.
Proof. intros H. unfold pad. rewrite app_length, repeat_length. lia. Qed.

Lemma nth_concat_const (w : nat) (l : list (list Z)) k i x : Forall (fun s => length s = w) l ->
  nth_error l k = Some x -> i < w -> nth_error (concat l) (k * w + i) = nth_error x i.
Proof.
  intros H; revert k; induction H as [|s l Hs H IH]; intros [|k] E Hi; cbn [nth_error] in E;
    try discriminate; cbn [concat].
  - injection E as ->. cbn [Nat.mul Nat.add]. apply nth_error_app1. lia.
  - rewrite nth_error_app2 by (cbn [Nat.mul]; lia).
    replace (S k * w + i - length s) with (k * w + i) by (cbn [Nat.mul]; lia). apply IH; assumption.
Qed.

(* p points to a copy of the text t in a slot of w code points *)
Definition points (m : list Z) (w : nat) (p : Z) (t : list Z) : Prop :=
  forall i, i < w -> cp m p i = Ok (nth i (pad w t) 0%Z).

Lemma slot_points w ts k t : Forall (fits w) ts -> nth_error ts k = Some t ->
  points (strs w ts) w (4 * Z.of_nat (k * w)) t.
Proof.
  intros HF E i Hi. unfold cp.
  replace (4 * Z.of_nat (k * w) + 4 * Z.of_nat i)%Z with (4 * Z.of_nat (k * w + i))%Z by lia.
  rewrite load_at by lia. unfold strs.
  rewrite (nth_concat_const w (map (pad w) ts) k i (pad w t)).
  - assert (L : length (pad w t) = w).
    { apply pad_length. apply nth_error_In in E. rewrite Forall_forall in HF. apply (HF _ E). }
    rewrite (nth_error_nth' _ 0%Z) by lia. reflexivity.
  - apply Forall_map. eapply Forall_impl; [|exact HF]. intros x [_ Hx]. apply pad_length; exact Hx.
  - rewrite nth_error_map'. rewrite E. reflexivity.
  - exact Hi.
Qed.

Definition addr_of (a : arr) (idx : list nat) : Z := (a_off a + dot idx (a_strides a))%Z.

Lemma flat_starts_idx w ts a : string_array w ts a ->
  is_c_contiguous (a_shape a) (a_strides a) (a_item a) = true ->
  flat_starts w a = map (addr_of a) (all_idx (a_shape a)).
Proof.
  intros [Hw _ W HI] HC. pose proof W as (_ & _ & _ & HL & _).
  unfold flat_starts, size. rewrite all_idx_unrank, map_map.
  apply map_ext_in. intros k Hk. apply in_seq in Hk. unfold addr_of.
  rewrite (c_contig_dot (a_shape a) (a_strides a) (a_item a)); auto; [|apply unrank_inb; lia].
  rewrite rank_unrank by lia. rewrite HI. lia.
Qed.

Lemma starts_idx w ts a : string_array w ts a ->
  starts w a = map (addr_of a) (all_idx (a_shape a)).
Proof.
  intros A. pose proof A as [Hw _ W HI]. pose proof W as (_ & _ & _ & HL & _ & HC & _).
  unfold starts. destruct (a_c a) eqn:E.
  - apply (flat_starts_idx w ts a A), HC. reflexivity.
  - unfold iter_offsets. rewrite strided_offsets_spec, map_map by exact HL.
    apply map_ext. intros idx. unfold addr_of. lia.
Qed.

Lemma addr_points w ts a idx t : string_array w ts a -> inb idx (a_shape a) ->
  get ts a idx = Some t -> points (strs w ts) w (addr_of a idx) t /\ fits w t.
Proof.
  intros [Hw HF W HI] Hin E. unfold get, byte_offset_for in E. rewrite HI in E.
  pose proof E as E'. unfold load in E'. fold (addr_of a idx) in E, E'.
  apply load_some in E; [|lia]. destruct E as (H0 & Hm & Hlt).
  destruct (Z.ltb_spec (addr_of a idx) 0); [discriminate|].
  rewrite Hm in E'. cbn [Z.eqb] in E'.
  assert (Ea : addr_of a idx = (4 * Z.of_nat (Z.to_nat (addr_of a idx / (4 * Z.of_nat w)) * w))%Z).
  { rewrite Nat2Z.inj_mul, Z2Nat.id by (apply Z.div_pos; lia).
    pose proof (Z.div_mod (addr_of a idx) (4 * Z.of_nat w)). rewrite Hm in H1. lia. }
  split.
  - rewrite Ea at 1. apply slot_points; assumption.
  - apply nth_error_In in E'. rewrite Forall_forall in HF. apply HF, E'.
Qed.

(* the elements of a string array *)
Lemma texts_of w ts a : string_array w ts a ->
  exists vals, elems ts a = map Some vals /\ length vals = size a /\
    Forall (fits w) vals /\
    Forall2 (fun p t => points (strs w ts) w p t) (starts w a) vals.
Proof.
  intros A. destruct (wf_elems ts a (sa_wf _ _ _ A)) as (vals & E & HL).
  exists vals. split; [exact E|]. split; [exact HL|].
  rewrite (starts_idx w ts a A). unfold elems in E.
  assert (H : forall idx, In idx (all_idx (a_shape a)) -> inb idx (a_shape a))
    by (intros idx Hi; apply in_all_idx; exact Hi).
  revert vals E HL; generalize (size a) as n.
  induction (all_idx (a_shape a)) as [|idx l IH]; intros n [|v vals] E HL; try discriminate.
  - split; constructor.
  - cbn [map] in E. injection E as E1 E2.
    destruct (addr_points w ts a idx v A (H idx (or_introl eq_refl)) E1) as [P1 P2].
    destruct (IH (fun i Hi => H i (or_intror Hi)) (length vals) vals E2 eq_refl) as [Q1 Q2].
    split; cbn [map]; constructor; assumption.
Qed.

Lemma elementwise_map {B} (f : list Z -> B) ts a vals : elems ts a = map Some vals ->
  length vals = size a -> elementwise f ts a (map f vals).
Proof.
  intros E HL. split; [rewrite map_length; exact HL|].
  intros idx t Hi Hg. rewrite nth_error_map'.
  assert (EN : nth_error (elems ts a) (rank (a_shape a) idx) = Some (get ts a idx)).
  { unfold elems. rewrite nth_error_map', nth_error_all_idx_rank by exact Hi. reflexivity. }
  rewrite E, nth_error_map' in EN. change (rm_rank (a_shape a) idx) with (rank (a_shape a) idx).
  destruct (nth_error vals (rank (a_shape a) idx)) as [v|]; cbn [option_map] in EN |- *; [|discriminate].
  injection EN as EN. rewrite Hg in EN. injection EN as ->. reflexivity.
Qed.

(* ---- reading a text ---- *)
Lemma nth_pad w t i : nth i (pad w t) 0%Z = nth i t 0%Z.
Proof.
  unfold pad. destruct (Nat.lt_ge_cases i (length t)) as [H|H].
  - apply app_nth1; exact H.
  - rewrite app_nth2, (nth_overflow t) by exact H.
    destruct (Nat.lt_ge_cases (i - length t) (w - length t)) as [H1|H1].
    + rewrite nth_repeat. reflexivity.
    + apply nth_overflow. rewrite repeat_length. exact H1.
Qed.

Lemma mapM_Ok {A B} (f : A -> res B) (g : A -> B) l : (forall x, In x l -> f x = Ok (g x)) ->
  mapM f l = Ok (map g l).
Proof.
  induction l as [|x l IH]; intros H; [reflexivity|]. cbn [mapM map].
  rewrite (H x (or_introl eq_refl)). cbn [bind]. rewrite IH by (intros y Hy; apply H; right; exact Hy).
  reflexivity.
Qed.

Lemma map_nth_seq (t : list Z) : map (fun i => nth i t 0%Z) (seq 0 (length t)) = t.
Proof.
  induction t as [|c t IH]; [reflexivity|]. cbn [length seq map nth]. f_equal.
  rewrite <- seq_shift, map_map. exact IH.
Qed.

Lemma strlen_ok m w p t : points m w p t -> fits w t -> forall n i, i + n = w -> i <= length t ->
  strlen_from m p i n = Ok (length t).
Proof.
  intros P [T L] n; induction n as [|n IH]; intros i E Hi; cbn [strlen_from].
  - f_equal; lia.
  - rewrite (P i) by lia. cbn [bind]. rewrite nth_pad.
    destruct (Z.eqb_spec (nth i t 0%Z) 0) as [E0|E0].
    + f_equal. destruct (Nat.lt_ge_cases i (length t)) as [H|H]; [|lia]. exfalso.
      unfold text in T. rewrite Forall_forall in T.
      destruct (T (nth i t 0%Z) (nth_In t 0%Z H)) as [_ H1]. contradiction.
    + apply IH; [lia|]. destruct (Nat.lt_ge_cases i (length t)) as [H|H]; [lia|].
      rewrite nth_overflow in E0 by lia. contradiction.
Qed.

Lemma text_at_ok m w p t : points m w p t -> fits w t -> text_at m w p = Ok t.
Proof.
  intros P F. unfold text_at. rewrite (strlen_ok m w p t P F w 0 eq_refl (Nat.le_0_l _)). cbn [bind].
  rewrite (mapM_Ok _ (fun i => nth i t 0%Z)); [rewrite map_nth_seq; reflexivity|].
  intros i Hi. apply in_seq in Hi. destruct F as [T L]. rewrite (P i) by lia. rewrite nth_pad. reflexivity.
Qed.

Lemma raw_ok m w p t : points m w p t -> length t <= w -> mapM (cp m p) (seq 0 w) = Ok (pad w t).
Proof.
  intros P L. rewrite (mapM_Ok _ (fun i => nth i (pad w t) 0%Z)).
  - rewrite <- (pad_length w t L) at 1. rewrite map_nth_seq. reflexivity.
  - intros i Hi. apply in_seq in Hi. apply P; lia.
Qed.

Lemma mapM_Forall2 {A B C} (R : A -> B -> Prop) (f : A -> res C) (g : B -> C) l m :
  Forall2 R l m -> (forall x y, R x y -> In y m -> f x = Ok (g y)) -> mapM f l = Ok (map g m).
Proof.
  induction 1 as [|x y l m HR H IH]; intros Hf; [reflexivity|]. cbn [mapM map].
  rewrite (Hf x y HR (or_introl eq_refl)). cbn [bind].
  rewrite IH by (intros x' y' Hr Hy; apply Hf; [exact Hr|right; exact Hy]). reflexivity.
Qed.

(* ---- the three kinds of loop ---- *)
Lemma place_ok w t : length t <= w -> place w t = Ok (pad w t).
Proof. intros H. unfold place. destruct (Nat.leb_spec (length t) w); [reflexivity|lia]. Qed.

Lemma strs_map w (g : list Z -> list Z) vals :
  concat (map (fun t => pad w (g t)) vals) = strs w (map g vals).
Proof. unfold strs. rewrite map_map. reflexivity. Qed.

Lemma write_ok w w' g ts a : string_array w ts a ->
  (forall idx t, inb idx (a_shape a) -> get ts a idx = Some t -> length (g t) <= w') ->
  exists out, write_texts w w' g (strs w ts) (starts w a) = Ok (w', strs w' out) /\
    elementwise g ts a out.
Proof.
  intros A Hg. destruct (texts_of w ts a A) as (vals & E & HL & HF & HP).
  exists (map g vals). split; [|apply elementwise_map; assumption].
  assert (Hv : forall t, In t vals -> length (g t) <= w').
  { intros t Ht. apply (in_map Some) in Ht. rewrite <- E in Ht. unfold elems in Ht.
    apply in_map_iff in Ht. destruct Ht as (idx & Eg & Hi).
    apply (Hg idx t); [apply in_all_idx; exact Hi|exact Eg]. }
  unfold write_texts.
  rewrite (mapM_Forall2 _ _ (fun t => pad w' (g t)) _ _ HP).
  - cbn [bind]. rewrite strs_map. reflexivity.
  - intros p t Hp Ht. rewrite Forall_forall in HF.
    rewrite (text_at_ok _ _ _ _ Hp (HF t Ht)). cbn [bind]. apply place_ok, Hv, Ht.
Qed.

Lemma per_text_ok {B} (g : list Z -> B) w ts a : string_array w ts a ->
  exists out, per_text g (Some w) (strs w ts) a = Ok out /\ elementwise g ts a out.
Proof.
  intros A. destruct (texts_of w ts a A) as (vals & E & HL & HF & HP).
  exists (map g vals). split; [|apply elementwise_map; assumption].
  unfold per_text. apply (mapM_Forall2 _ _ g _ _ HP).
  intros p t Hp Ht. rewrite Forall_forall in HF.
  rewrite (text_at_ok _ _ _ _ Hp (HF t Ht)). reflexivity.
Qed.

Lemma transform_ok f w ts a : string_array w ts a ->
  exists out, transform f (Some w) (strs w ts) a = Ok (w, strs w out) /\
    elementwise (map f) ts a out.
Proof.
  intros A. destruct (texts_of w ts a A) as (vals & E & HL & HF & HP).
  exists (map (map f) vals). split; [|apply elementwise_map; assumption].
  unfold transform. rewrite (mapM_Forall2 _ _ (fun t => pad w (map f t)) _ _ HP).
  - cbn [bind]. rewrite strs_map. reflexivity.
  - intros p t Hp Ht. rewrite Forall_forall in HF. destruct (HF t Ht) as [T L].
    rewrite (raw_ok _ _ _ _ Hp L). cbn [bind]. f_equal. unfold pad. rewrite map_app, map_length.
    f_equal.
    + apply map_ext_in. intros c Hc. unfold text in T. rewrite Forall_forall in T.
      destruct (T c Hc) as [_ H0]. destruct (Z.eqb_spec c 0); [contradiction|reflexivity].
    + rewrite map_repeat. reflexivity.
Qed.

Lemma elementwise_ext {B} (f g : list Z -> B) ts a out : 
  (forall idx t, inb idx (a_shape a) -> get ts a idx = Some t -> f t = g t) ->
  elementwise f ts a out -> elementwise g ts a out.
Proof.
  intros H [HL HE]. split; [exact HL|]. intros idx t Hi Hg. rewrite (HE idx t Hi Hg).
  f_equal. apply (H idx t Hi Hg).
Qed.
