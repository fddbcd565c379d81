(* Proofs about the array interface. *)
From Coq Require Import Ascii String.
From Verif Require Import Base Lists Arr_Spec Arr_Model Arr_Wf Arr_Proofs Copy_Model Copy_Proofs Date_Spec Promo_Spec Promo_Model Io_Spec Io_Model Io_Proofs Lay_Model.
Local Open Scope nat_scope.
Local Open Scope list_scope.

Definition fixed (k : kind) : Prop := match k with Str _ | Bytes _ => False | _ => True end.
Lemma fixed_item k : fixed k -> (1 <= itemsize k <= 16)%Z.
Proof. destruct k; cbn; intros H; try lia; contradiction. Qed.
Lemma typestr_back k : fixed k -> dtype_from_typestr (typestr k) = Ok k.
Proof. destruct k as [ | | | | | | | | | | | |u|u| | | |]; cbn [fixed]; intros H; try contradiction; try destruct u; vm_compute; reflexivity. Qed.

Lemma mapM_ok {A B} (f : A -> res B) (g : A -> B) l : (forall x, In x l -> f x = Ok (g x)) -> mapM f l = Ok (map g l).
Proof.
  induction l as [|x l IH]; intros H; [reflexivity|]. cbn [mapM map]. rewrite H by (left; reflexivity). cbn [bind].
  rewrite IH by (intros; apply H; right; assumption). reflexivity.
Qed.
Lemma import_ok mem i override k : match override with Some k' => k' = k | None => dtype_from_typestr (if_type i) = Ok k end -> (0 < itemsize k)%Z ->
  (Z.of_nat (prod (if_shape i)) * itemsize k < 2 ^ 63)%Z ->
  let st := match if_strides i with Some st => st | None => c_strides (if_shape i) (itemsize k) end in
  (forall idx, inb idx (if_shape i) -> (0 <= if_data i + dot idx st /\ if_data i + dot idx st + itemsize k <= Z.of_nat (List.length mem))%Z) ->
  exists vals, import mem i override = Ok (k, vals, fresh (if_shape i) (itemsize k)) /\ wf vals (fresh (if_shape i) (itemsize k)) /\
    forall idx, inb idx (if_shape i) ->
      get vals (fresh (if_shape i) (itemsize k)) idx = Some (firstn (Z.to_nat (itemsize k)) (skipn (Z.to_nat (if_data i + dot idx st)) mem)).
Proof.
  intros HK HI HB st HM. exists (map (fun idx => firstn (Z.to_nat (itemsize k)) (skipn (Z.to_nat (if_data i + dot idx st)) mem)) (all_idx (if_shape i))).
  split; [|split].
  - unfold import. replace (match override with Some k0 => Ok k0 | None => dtype_from_typestr (if_type i) end) with (Ok k) by (destruct override; congruence).
    cbn [bind]. fold st. rewrite odometer_all. rewrite (mapM_ok _ (fun idx => firstn (Z.to_nat (itemsize k)) (skipn (Z.to_nat (if_data i + dot idx st)) mem))); [reflexivity|].
    intros idx Hx. apply in_all_idx in Hx. destruct (HM idx Hx) as [H1 H2]. unfold raw. destruct (Z.eqb_spec (itemsize k) 0); [lia|].
    destruct (Z.leb_spec 0 (if_data i + dot idx st)); [|lia]. destruct (Z.leb_spec (if_data i + dot idx st + itemsize k) (Z.of_nat (List.length mem))); [reflexivity|lia].
  - apply fresh_wf; [exact HI|rewrite map_length, all_idx_length; exact HB|rewrite map_length, all_idx_length; reflexivity].
  - intros idx Hx. rewrite fresh_get by exact HI. rewrite nth_error_map', nth_error_all_idx_rank by exact Hx. reflexivity.
Qed.
(* the bytes of one element of a buffer *)
Lemma concat_elem buf item (ad : Z) v : (0 < item)%Z -> sized (Z.to_nat item) buf -> load buf item ad = Some v ->
  (0 <= ad)%Z /\ (ad + item <= Z.of_nat (List.length (concat buf)))%Z /\ firstn (Z.to_nat item) (skipn (Z.to_nat ad) (concat buf)) = v.
Proof.
  intros HI HS HL. destruct (Io_Proofs.load_some buf item ad v HI HL) as (k & -> & Hk).
  assert (LK : k < List.length buf) by (apply nth_error_Some; congruence). rewrite (concat_len (Z.to_nat item) buf HS).
  split; [lia|]. split; [nia|]. replace (Z.to_nat (item * Z.of_nat k)) with (Z.to_nat item * k) by nia. rewrite skipn_concat by exact HS.
  replace (Z.to_nat item) with (Z.to_nat item * 1) at 1 by lia. rewrite firstn_concat by (apply sized_skipn; exact HS).
  destruct (nth_error_split buf k Hk) as (l1 & l2 & -> & <-). rewrite skipn_app, skipn_all2, Nat.sub_diag by lia. cbn [app skipn firstn concat]. apply app_nil_r.
Qed.
Lemma round_trip_ok k buf a : fixed k -> wf buf a -> a_item a = itemsize k -> sized (Z.to_nat (itemsize k)) buf ->
  (Z.of_nat (size a) * itemsize k < 2 ^ 63)%Z ->
  exists vals, import (concat buf) (export k a) None = Ok (k, vals, fresh (a_shape a) (itemsize k)) /\ wf vals (fresh (a_shape a) (itemsize k)) /\
    forall idx, inb idx (a_shape a) -> get vals (fresh (a_shape a) (itemsize k)) idx = get buf a idx.
Proof.
  intros HK W EI HS HB. pose proof (fixed_item k HK) as HI. pose proof W as (_ & _ & _ & _ & HG & _).
  destruct (import_ok (concat buf) (export k a) None k (typestr_back k HK) ltac:(lia) HB) as (vals & E & W' & G).
  - intros idx Hx. cbn [export if_shape if_data if_strides] in *. destruct (HG idx Hx) as (v & Hv). unfold get in Hv. rewrite EI in Hv.
    destruct (concat_elem buf (itemsize k) _ v ltac:(lia) HS Hv) as (H1 & H2 & _). split; assumption.
  - exists vals. split; [exact E|]. split; [exact W'|]. intros idx Hx. cbn [export if_shape if_data if_strides] in *. rewrite (G idx Hx).
    destruct (HG idx Hx) as (v & Hv). rewrite Hv. unfold get in Hv. rewrite EI in Hv. destruct (concat_elem buf (itemsize k) _ v ltac:(lia) HS Hv) as (_ & _ & H3).
    f_equal. exact H3.
Qed.
