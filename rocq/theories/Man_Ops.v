(* Lemmas about Man_Model: repeat, tile, roll, tri/tril/triu, diagflat, pad. *)
From Verif Require Import Base Lists Arr_Spec Arr_Model Arr_Wf Arr_Proofs Copy_Model Copy_Proofs Idx_Model
  Elem_Model Elem_Proofs Red_Spec Red_Model Red_Proofs Red_Scan Sort_Lanes Sort_Api Man_Model Man_Proofs.
Local Open Scope nat_scope.

Lemma norm_axis_spec nd ax : norm_axis nd ax =
  if ((- Z.of_nat nd <=? ax) && (ax <? Z.of_nat nd))%Z
  then Some (Z.to_nat (if (ax <? 0)%Z then Z.of_nat nd + ax else ax)%Z) else None.
Proof.
  unfold norm_axis. destruct (Z.ltb_spec ax 0), (Z.leb_spec (- Z.of_nat nd) ax), (Z.ltb_spec ax (Z.of_nat nd)); cbn [andb]; cbv zeta;
  repeat match goal with |- context [(?x <? ?y)%Z] => destruct (Z.ltb_spec x y); try lia
                      | |- context [(?x <=? ?y)%Z] => destruct (Z.leb_spec x y); try lia end; cbn [orb]; reflexivity || lia.
Qed.

Lemma wrap_isize_id z : (- 2 ^ 63 <= z < 2 ^ 63)%Z -> wrap_isize z = z.
Proof.
  intros H. unfold wrap_isize, wrap_usize, to_isize, two64.
  destruct (Z.leb_spec 0 z).
  - rewrite Z.mod_small by lia. destruct (Z.ltb_spec z (2 ^ 63)); lia.
  - replace (z mod 2 ^ 64)%Z with (z + 2 ^ 64)%Z.
    + destruct (Z.ltb_spec (z + 2 ^ 64) (2 ^ 63)); lia.
    + apply Z.mod_unique with (-1)%Z; lia.
Qed.

Section Via.
Context {V : Type}.
Variables (zero : V) (via : V -> V).
Definition vget (buf : list V) (a : arr) (idx : list nat) : V :=
  match get buf a idx with Some v => v | None => zero end.
Lemma vget_some buf a idx : wf buf a -> inb idx (a_shape a) -> get buf a idx = Some (vget buf a idx).
Proof. intros W Hi. unfold vget. destruct (wf_get buf a idx W Hi) as [v ->]. reflexivity. Qed.
Lemma read_vget buf a idx : wf buf a -> inb idx (a_shape a) -> read buf a (byte_offset_for a idx) = Ok (vget buf a idx).
Proof. intros W Hi. unfold read. fold (get buf a idx). rewrite (vget_some buf a idx W Hi). reflexivity. Qed.

(* ---- repeat ---- *)
Lemma nth_flat_repeat (f : V -> V) r l i : 0 < r ->
  nth_error (flat_map (fun v => repeat (f v) r) l) i = option_map f (nth_error l (i / r)).
Proof.
  intros Hr. rewrite (Nat.div_mod i r) at 1 by lia. rewrite (Nat.mul_comm r), flat_map_concat_map.
  pose proof (Nat.mod_upper_bound i r ltac:(lia)) as Hm.
  rewrite nth_error_concat; [|intros x Hx; apply in_map_iff in Hx as (v & <- & _); apply repeat_length|exact Hm].
  rewrite nth_error_map'. destruct (nth_error l (i / r)) as [v|]; [|reflexivity]. cbn.
  apply nth_error_repeat. exact Hm.
Qed.

Lemma repeat_flat_spec buf a vals r : wf buf a -> elems buf a = map Some vals -> 0 < r ->
  exists out, repeat_arr zero via buf a r None = Ok ([size a * r], out) /\ length out = size a * r /\
    forall i, nth_error out i = option_map via (nth_error vals (i / r)).
Proof.
  intros W E Hr. unfold repeat_arr. destruct (Nat.eqb_spec r 0); [lia|].
  rewrite (read_offsets buf a vals W E). cbn [bind]. eexists. split; [reflexivity|]. split.
  - rewrite (flat_map_const_length _ _ r) by (intros; apply repeat_length).
    f_equal. rewrite <- (map_length Some vals), <- E. unfold elems, size. rewrite map_length. apply all_idx_length.
  - intros i. apply nth_flat_repeat. exact Hr.
Qed.

Lemma inb_len_axis sh (idx : list nat) axis n : inb idx sh -> nth_error sh axis = Some n -> axis < length idx.
Proof. intros H Hn. rewrite (inb_length _ _ H). apply nth_error_Some. congruence. Qed.

Lemma nth_upd_same {A} (l : list A) n v d : n < length l -> nth n (upd l n v) d = v.
Proof. intros H. apply nth_error_nth. apply nth_error_upd_eq. exact H. Qed.

Lemma upd_nth_same (l : list nat) n : n < length l -> upd l n (nth n l 0) = l.
Proof. intros H. apply upd_same. apply nth_error_nth'. exact H. Qed.

Lemma repeat_axis_spec buf a r ax axis n item : wf buf a -> 0 < r -> (0 < item)%Z ->
  norm_axis (ndim a) ax = Some axis -> nth_error (a_shape a) axis = Some n ->
  let nsh := upd (a_shape a) axis (n * r) in
  exists out, repeat_arr zero via buf a r (Some ax) = Ok (nsh, out) /\ length out = prod nsh /\
    forall idx, inb idx nsh ->
      inb (upd idx axis (nth axis idx 0 / r)) (a_shape a) /\
      get out (fresh nsh item) idx = option_map via (get buf a (upd idx axis (nth axis idx 0 / r))).
Proof.
  intros W Hr HI HA Hn nsh. unfold repeat_arr. destruct (Nat.eqb_spec r 0); [lia|]. rewrite HA.
  rewrite (nth_error_nth _ _ _ Hn). cbv zeta. fold nsh. unfold size, ndim. rewrite odometer_all.
  assert (Hax : axis < length (a_shape a)) by (apply nth_error_Some; congruence).
  rewrite (mapM_ok _ (fun si => map (fun q => (flat_idx (upd si axis (nth axis si 0 * r + q)) nsh, via (vget buf a si))) (seq 0 r))).
  2:{ intros si Hs. apply in_all_idx in Hs. rewrite read_vget by assumption. reflexivity. }
  cbn [bind].
  set (L := flat_map (fun si => map (fun q => (si, q)) (seq 0 r)) (all_idx (a_shape a))).
  assert (EL : concat (map (fun si => map (fun q => (flat_idx (upd si axis (nth axis si 0 * r + q)) nsh, via (vget buf a si))) (seq 0 r))
                           (all_idx (a_shape a))) =
               map (fun x => (flat_idx (upd (fst x) axis (nth axis (fst x) 0 * r + snd x)) nsh, via (vget buf a (fst x)))) L).
  { unfold L. rewrite flat_map_concat_map, concat_map, map_map. f_equal. apply map_ext. intros si. rewrite map_map. reflexivity. }
  rewrite EL. clear EL.
  assert (InL : forall si q, In (si, q) L <-> inb si (a_shape a) /\ q < r).
  { intros si q. unfold L. rewrite in_flat_map. split.
    - intros (s & Hs & Hq). apply in_map_iff in Hq as (q' & Eq & Hq). injection Eq as -> ->. apply in_seq in Hq.
      apply in_all_idx in Hs. split; [exact Hs|lia].
    - intros [Hs Hq]. exists si. split; [apply in_all_idx, Hs|]. apply in_map_iff. exists q. split; [reflexivity|apply in_seq; lia]. }
  destruct (scatter nsh L (fun x => upd (fst x) axis (nth axis (fst x) 0 * r + snd x)) (fun x => via (vget buf a (fst x)))
                    (repeat zero (prod nsh))) as (out & E & Len & HN & _).
  { apply repeat_length. }
  { intros [si q] Hin. apply InL in Hin as [Hs Hq]. cbn [fst snd]. apply inb_upd; [exact Hs|].
    pose proof (nth_inb _ _ _ _ Hs Hn). nia. }
  { intros [si q] [si' q'] Hx Hy Exy. apply InL in Hx as [Hs Hq]. apply InL in Hy as [Hs' Hq']. cbn [fst snd] in *.
    pose proof (inb_length _ _ Hs). pose proof (inb_length _ _ Hs').
    apply (upd_inj_idx axis 0 _ 0) in Exy as [E1 E2]; [|lia|lia].
    assert (nth axis si 0 = nth axis si' 0) by nia.
    f_equal. f_equal. rewrite <- (insert_remove_at axis (nth axis si 0) si), <- (insert_remove_at axis (nth axis si' 0) si')
      by (apply nth_error_nth'; lia). congruence. }
  rewrite E. cbn [bind]. exists out. split; [reflexivity|]. split; [exact Len|]. intros idx Hi.
  pose proof (inb_length _ _ Hi) as HL. unfold nsh in HL. rewrite upd_length in HL.
  assert (Hq : nth axis idx 0 < n * r).
  { apply (nth_inb nsh); [exact Hi|]. apply nth_error_upd_eq. exact Hax. }
  assert (Hd : nth axis idx 0 / r < n) by (apply Nat.div_lt_upper_bound; lia).
  assert (HS : inb (upd idx axis (nth axis idx 0 / r)) (a_shape a)).
  { replace (a_shape a) with (upd nsh axis n); [apply inb_upd; assumption|].
    unfold nsh. rewrite upd_upd. apply upd_same. exact Hn. }
  split; [exact HS|].
  rewrite fresh_get by exact HI. rewrite (vget_some buf a _ W HS). cbn [option_map].
  specialize (HN (upd idx axis (nth axis idx 0 / r), nth axis idx 0 mod r)). cbn [fst snd] in HN.
  rewrite nth_upd_same in HN by lia. rewrite upd_upd in HN.
  replace (nth axis idx 0 / r * r + nth axis idx 0 mod r) with (nth axis idx 0) in HN
    by (rewrite (Nat.div_mod (nth axis idx 0) r) at 1 by lia; lia).
  rewrite upd_nth_same in HN by lia. apply HN. apply InL. split; [exact HS|]. apply Nat.mod_upper_bound. lia.
Qed.

(* ---- tile ---- *)
Definition tile_src (d : nat) (a : arr) (di : list nat) : list nat :=
  skipn (d - ndim a) (zip_with Nat.modulo di (pad_left d (a_shape a))).

Lemma pad_left_length n l : length l <= n -> length (pad_left n l) = n.
Proof. intros H. unfold pad_left. rewrite app_length, repeat_length. lia. Qed.

Lemma zip_mod_inb : forall l r di, length l = length r -> inb di (zip_with Nat.mul l r) -> inb (zip_with Nat.modulo di l) l.
Proof.
  induction l as [|s l IH]; intros [|q r] di HL Hi; cbn in HL; try lia; cbn [zip_with] in Hi.
  - inversion Hi. constructor.
  - destruct di as [|i di]; [inversion Hi|]. apply inb_cons in Hi as [H1 H2]. cbn [zip_with]. apply inb_cons. split.
    + apply Nat.mod_upper_bound. nia.
    + apply (IH r); [lia|exact H2].
Qed.

Lemma tile_src_inb a reps di : let d := Nat.max (ndim a) (length reps) in
  inb di (zip_with Nat.mul (pad_left d (a_shape a)) (pad_left d reps)) -> inb (tile_src d a di) (a_shape a).
Proof.
  intros d Hi. unfold tile_src. apply zip_mod_inb in Hi.
  2:{ rewrite !pad_left_length; unfold d, ndim; lia. }
  apply (inb_skipn (d - ndim a)) in Hi. unfold pad_left in Hi at 2. unfold ndim in *.
  rewrite skipn_app, repeat_length, Nat.sub_diag in Hi.
  rewrite (skipn_all2 (repeat 1 _)) in Hi by (rewrite repeat_length; lia). exact Hi.
Qed.

Lemma nth_concat_repeat (l : list V) r i : i < r * length l ->
  nth_error (concat (repeat l r)) i = nth_error l (i mod length l).
Proof.
  intros H. assert (0 < length l) by nia. rewrite (Nat.div_mod i (length l)) at 1 by lia. rewrite (Nat.mul_comm (length l)).
  rewrite nth_error_concat.
  - rewrite nth_error_repeat; [reflexivity|]. apply Nat.div_lt_upper_bound; nia.
  - intros x Hx. apply repeat_spec in Hx. subst. reflexivity.
  - apply Nat.mod_upper_bound. lia.
Qed.

Lemma zip_ones : forall l r, length l = length r -> (forall x, In x r -> x = 1) -> zip_with Nat.mul l r = l.
Proof.
  induction l as [|s l IH]; intros [|q r] HL H1; cbn in HL; try lia; cbn [zip_with]; [reflexivity|].
  rewrite (H1 q) by (left; reflexivity). rewrite Nat.mul_1_r, IH; [reflexivity|lia|]. intros; apply H1; right; assumption.
Qed.
Lemma zip_mod_id : forall sh idx, inb idx sh -> zip_with Nat.modulo idx sh = idx.
Proof. intros sh idx H. induction H; cbn [zip_with]; [reflexivity|]. rewrite Nat.mod_small by assumption. f_equal. assumption. Qed.

Lemma tile_spec typed buf a reps item : wf buf a -> (0 < item)%Z ->
  (length reps <= ndim a \/ exists r, In r reps /\ r <> 1) ->
  (forall idx v, inb idx (a_shape a) -> get buf a idx = Some v -> via v = v) ->
  let d := Nat.max (ndim a) (length reps) in
  let nsh := zip_with Nat.mul (pad_left d (a_shape a)) (pad_left d reps) in
  exists out, tile zero via typed buf a reps = Ok (nsh, out) /\ length out = prod nsh /\
    forall idx, inb idx nsh -> inb (tile_src d a idx) (a_shape a) /\ get out (fresh nsh item) idx = get buf a (tile_src d a idx).
Proof.
  intros W HI HR HV d nsh. unfold tile.
  destruct ((match reps with [] => true | _ => false end) || forallb (fun r => r =? 1) reps) eqn:EB.
  - assert (H1 : forall r, In r reps -> r = 1).
    { intros r Hr. destruct reps as [|r0 reps]; [contradiction|]. cbn [orb] in EB. rewrite forallb_forall in EB.
      apply Nat.eqb_eq, EB, Hr. }
    destruct HR as [HR|(r & Hr & Nr)]; [|exfalso; apply Nr, H1, Hr].
    assert (Ed : d = ndim a) by (unfold d; lia).
    assert (EN : nsh = a_shape a).
    { unfold nsh. rewrite zip_ones.
      - unfold pad_left. rewrite Ed. unfold ndim. rewrite Nat.sub_diag. reflexivity.
      - rewrite !pad_left_length; unfold d, ndim; lia.
      - intros x Hx. unfold pad_left in Hx. apply in_app_iff in Hx as [Hx|Hx]; [apply repeat_spec in Hx; exact Hx|apply H1, Hx]. }
    destruct (copy_buf_spec buf a typed W) as (vals & E & EE & Len). rewrite E. cbn [bind].
    exists vals. rewrite EN. split; [reflexivity|]. split; [exact Len|]. intros idx Hi.
    assert (ES : tile_src d a idx = idx).
    { unfold tile_src. rewrite Ed, Nat.sub_diag. cbn [skipn]. unfold pad_left, ndim. rewrite Nat.sub_diag. cbn [repeat app].
      apply zip_mod_id. exact Hi. }
    rewrite ES. split; [exact Hi|]. pose proof (elems_get buf vals a (fun v => v) idx item HI EE Hi) as G.
    rewrite map_id in G. rewrite G. destruct (get buf a idx); reflexivity.
  - fold d. fold nsh.
    destruct ((ndim a =? 1) && (length reps =? 1) && a_c a) eqn:EF.
    + apply andb_true_iff in EF as [EF HC]. apply andb_true_iff in EF as [E1 E2].
      apply Nat.eqb_eq in E1, E2. destruct (wf_elems buf a W) as (vals & EE & Len).
      rewrite (read_contig buf a vals W HC EE). cbn [bind].
      unfold ndim in E1. destruct (a_shape a) as [|n [|]] eqn:SA; try (cbn in E1; lia).
      destruct reps as [|r [|]]; try (cbn in E2; lia). cbn [nth].
      assert (Ed : d = 1) by (unfold d, ndim; rewrite SA; reflexivity).
      assert (EN : nsh = [n * r]).
      { unfold nsh. rewrite Ed. reflexivity. }
      unfold size in Len. rewrite SA in Len. cbn [prod] in Len. rewrite Nat.mul_1_r in Len.
      exists (concat (repeat vals r)). split; [reflexivity|]. rewrite EN. split.
      { assert (HC1 : forall k, length (concat (repeat vals k)) = k * n).
        { induction k as [|k IHk]; [reflexivity|]. cbn [repeat concat]. rewrite app_length, IHk. lia. }
        rewrite HC1. cbn [prod]. lia. }
      intros idx Hi. assert (HS : inb (tile_src d a idx) [n]).
      { rewrite <- SA. apply (tile_src_inb a [r]). fold d. rewrite SA. fold nsh. rewrite EN. exact Hi. }
      split; [exact HS|]. destruct idx as [|i idx']; [inversion Hi|]. apply inb_cons in Hi as [Hi1 Hi2].
      destruct idx' as [|]; [|inversion Hi2].
      unfold tile_src in HS |- *. unfold ndim in HS |- *. rewrite SA in HS |- *. rewrite Ed in HS |- *. cbn in HS |- *.
      rewrite fresh_get by exact HI. cbn [rank prod]. rewrite Nat.mul_1_r, Nat.add_0_r.
      rewrite nth_concat_repeat by (rewrite Len; lia). rewrite Len.
      assert (HE := f_equal (fun l => nth_error l (i mod n)) EE). cbn beta in HE. unfold elems in HE. rewrite SA in HE.
      rewrite nth_error_map' in HE. apply inb_cons in HS as [Hm _].
      replace (nth_error (all_idx [n]) (i mod n)) with (Some [i mod n]) in HE.
      2:{ symmetry. rewrite <- (nth_error_all_idx_rank [n] [i mod n]) by (apply inb_cons; split; [exact Hm|constructor]).
          cbn [rank prod]. f_equal. lia. }
      cbn [option_map] in HE. rewrite nth_error_map' in HE. destruct (nth_error vals (i mod n)); cbn in HE; congruence.
    + assert (HL : length nsh = d).
      { unfold nsh. rewrite zip_with_length, !pad_left_length; unfold d, ndim; lia. }
      destruct (scatter_all nsh (fun di => bind (read buf a (byte_offset_for a (tile_src d a di))) (fun v => Ok (via v)))
                            (fun di => vget buf a (tile_src d a di)) (repeat zero (prod nsh)) item HI) as (ws & out & E1 & E2 & Len & HN).
      { apply repeat_length. }
      { intros idx Hi. assert (HS := tile_src_inb a reps idx Hi). fold d in HS. rewrite read_vget by assumption. cbn [bind].
        f_equal. apply (HV _ _ HS). apply vget_some; assumption. }
      rewrite HL in E1. exists out.
      match goal with |- context [mapM ?f _] => replace (mapM f (odometer (prod nsh) (repeat 0 d) nsh)) with (@Ok (list (nat * V)) ws) end.
      2:{ rewrite <- E1. apply mapM_ext. intros x _. fold (tile_src d a x). destruct (read buf a _); reflexivity. }
      cbn [bind]. rewrite E2. cbn [bind]. split; [reflexivity|]. split; [exact Len|]. intros idx Hi.
      assert (HS := tile_src_inb a reps idx Hi). fold d in HS. split; [exact HS|]. rewrite (HN idx Hi). symmetry. apply vget_some; assumption.
Qed.
End Via.
