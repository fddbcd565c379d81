(* Laws relating the case functions on ASCII texts. *)
From Verif Require Import Base Lists Arr_Spec Arr_Model Arr_Wf Arr_Proofs Copy_Model Copy_Proofs
  Char_Spec Char_Model Char_Proofs Char_Text Char_More Char_Arr.
Local Open Scope nat_scope.

Lemma elementwise_related {B} (f : list Z -> B) (R : list Z -> B -> Prop) ts a out :
  (forall idx t, inb idx (a_shape a) -> get ts a idx = Some t -> R t (f t)) ->
  elementwise f ts a out -> related R ts a out.
Proof.
  intros H [HL HE]. split; [exact HL|]. intros idx t Hi Hg. exists (f t).
  split; [apply HE; assumption|apply (H idx); assumption].
Qed.

(* the array a function returned, as a string array *)
Lemma result_array w ts a out (f : list Z -> list Z) : string_array w ts a ->
  (Z.of_nat (size a) * (4 * Z.of_nat w) < 2 ^ 63)%Z ->
  elementwise f ts a out -> (forall idx t, inb idx (a_shape a) -> get ts a idx = Some t -> fits w (f t)) ->
  string_array w out (fresh (a_shape a) (4 * Z.of_nat w)) /\
  forall idx t, inb idx (a_shape a) -> get ts a idx = Some t ->
    get out (fresh (a_shape a) (4 * Z.of_nat w)) idx = Some (f t).
Proof.
  intros [Hw HF W HI] HB [HL HE] Hf.
  assert (HG : forall idx t, inb idx (a_shape a) -> get ts a idx = Some t ->
    get out (fresh (a_shape a) (4 * Z.of_nat w)) idx = Some (f t)).
  { intros idx t Hi Hg. rewrite fresh_get by lia. apply (HE idx t Hi Hg). }
  split; [|exact HG]. constructor.
  - exact Hw.
  - apply Forall_forall. intros x Hx. apply In_nth_error in Hx. destruct Hx as [k Hk].
    assert (Hlt : k < size a) by (rewrite <- HL; apply nth_error_Some; rewrite Hk; discriminate).
    pose proof (unrank_inb (a_shape a) k Hlt) as Hi.
    pose proof W as (_ & _ & _ & _ & Hg & _). destruct (Hg _ Hi) as [t Ht].
    pose proof (HE _ t Hi Ht) as He.
    change (rm_rank (a_shape a)) with (rank (a_shape a)) in He. rewrite rank_unrank in He by exact Hlt.
    rewrite Hk in He. injection He as ->. apply (Hf _ t Hi Ht).
  - apply fresh_wf; [lia| |exact HL]. rewrite HL. exact HB.
  - reflexivity.
Qed.

(* two arrays with the same elements are mapped to the same array *)
Lemma elementwise_det {B} (f : list Z -> B) ts a out out' : wf ts a ->
  elementwise f ts a out -> elementwise f ts a out' -> out = out'.
Proof.
  intros W [HL HE] [HL' HE']. apply nth_error_ext. intros k.
  destruct (Nat.lt_ge_cases k (size a)) as [Hk|Hk].
  - pose proof (unrank_inb (a_shape a) k Hk) as Hi.
    pose proof W as (_ & _ & _ & _ & Hg & _). destruct (Hg _ Hi) as [t Ht].
    specialize (HE _ t Hi Ht). specialize (HE' _ t Hi Ht).
    change (rm_rank (a_shape a)) with (rank (a_shape a)) in HE, HE'.
    rewrite rank_unrank in HE, HE' by exact Hk. congruence.
  - rewrite (proj2 (nth_error_None out k)) by lia. rewrite (proj2 (nth_error_None out' k)) by lia. reflexivity.
Qed.

Lemma elementwise_comp {B} (f : list Z -> list Z) (g : list Z -> B) w ts a out res : wf ts a ->
  (forall idx t, inb idx (a_shape a) -> get ts a idx = Some t ->
    get out (fresh (a_shape a) (4 * Z.of_nat w)) idx = Some (f t)) ->
  elementwise g out (fresh (a_shape a) (4 * Z.of_nat w)) res ->
  elementwise (fun t => g (f t)) ts a res.
Proof.
  intros W HG [HL HE]. split; [exact HL|]. intros idx t Hi Hg.
  apply (HE idx (f t) Hi), (HG idx t Hi Hg).
Qed.

Definition up1 (U : unicode) (c : Z) : Z :=
  if between 0x61 0x7A c then (c - 32)%Z else if (c <=? 0x7F)%Z then c else cp_to_upper U c.
Definition low1 (U : unicode) (c : Z) : Z :=
  if between 0x41 0x5A c then (c + 32)%Z else if (c <=? 0x7F)%Z then c else cp_to_lower U c.
Definition swap1 (U : unicode) (c : Z) : Z :=
  if cp_is_upper U c then cp_to_lower U c else if cp_is_lower U c then cp_to_upper U c else c.

Lemma ascii_map (f : Z -> Z) w t : fits w t -> ascii t ->
  (forall c, (0 < c <= 127)%Z -> (0 < f c <= 127)%Z) -> fits w (map f t) /\ ascii (map f t).
Proof.
  intros [T L] A H. split; [split|].
  - unfold text, ascii in *. rewrite Forall_forall in *. intros x Hx. apply in_map_iff in Hx.
    destruct Hx as (c & <- & Hc). specialize (A c Hc). destruct (T c Hc) as [_ N].
    specialize (H c). unfold is_char. lia.
  - rewrite map_length. exact L.
  - unfold text, ascii in *. rewrite Forall_forall in *. intros x Hx. apply in_map_iff in Hx.
    destruct Hx as (c & <- & Hc). specialize (A c Hc). destruct (T c Hc) as [_ N].
    specialize (H c). lia.
Qed.
Ltac cases := repeat match goal with
  | |- context [if ?b then _ else _] => let E := fresh "E" in destruct b eqn:E
  end; try lia.
Lemma up1_ascii U c : (0 < c <= 127)%Z -> (0 < up1 U c <= 127)%Z.
Proof. intros H. unfold up1, between. cases. Qed.
Lemma low1_ascii U c : (0 < c <= 127)%Z -> (0 < low1 U c <= 127)%Z.
Proof. intros H. unfold low1, between. cases. Qed.
Lemma swap1_val U c : (0 < c <= 127)%Z -> swap1 U c =
  if between 65 90 c then (c + 32)%Z else if between 97 122 c then (c - 32)%Z else c.
Proof.
  intros H. unfold swap1, cp_is_upper, cp_is_lower, cp_to_lower, cp_to_upper, between.
  destruct (Z.leb_spec c 127); [|lia].
  destruct ((65 <=? c)%Z && (c <=? 90)%Z); [reflexivity|].
  destruct ((97 <=? c)%Z && (c <=? 122)%Z); reflexivity.
Qed.
Lemma swap1_ascii U c : (0 < c <= 127)%Z -> (0 < swap1 U c <= 127)%Z.
Proof. intros H. rewrite swap1_val by exact H. unfold between. cases. Qed.

Lemma up_up U c : (0 < c <= 127)%Z -> up1 U (up1 U c) = up1 U c.
Proof. intros H. unfold up1, between. cases. Qed.
Lemma low_up U c : (0 < c <= 127)%Z -> low1 U (up1 U c) = low1 U c.
Proof. intros H. unfold low1, up1, between. cases. Qed.
Lemma up_low U c : (0 < c <= 127)%Z -> up1 U (low1 U c) = up1 U c.
Proof. intros H. unfold low1, up1, between. cases. Qed.
Lemma swap_swap U c : (0 < c <= 127)%Z -> swap1 U (swap1 U c) = c.
Proof.
  intros H. rewrite (swap1_val U (swap1 U c)) by (apply swap1_ascii; exact H).
  rewrite (swap1_val U c H). unfold between. cases.
Qed.
Lemma ascii_pos w t c : fits w t -> ascii t -> In c t -> (0 < c <= 127)%Z.
Proof.
  intros [T _] A Hc. unfold text, ascii in *. rewrite Forall_forall in *.
  specialize (A c Hc). destruct (T c Hc). lia.
Qed.
