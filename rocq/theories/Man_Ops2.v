(* Lemmas about Man_Model: roll, tri/tril/triu, diagflat, pad. *)
From Verif Require Import Base Lists Arr_Spec Arr_Model Arr_Wf Arr_Proofs Copy_Model Copy_Proofs Idx_Model
  Elem_Model Elem_Proofs Red_Spec Red_Model Red_Proofs Red_Scan Sort_Lanes Sort_Api Man_Spec Man_Model Man_Proofs Man_Ops.
Local Open Scope nat_scope.

Lemma norm_shift_spec s n : 0 < n -> Z.of_nat (norm_shift s n) = (s mod Z.of_nat n)%Z.
Proof.
  intros H. unfold norm_shift.
  pose proof (Z.rem_bound_abs s (Z.of_nat n) ltac:(lia)) as HB.
  rewrite Nat2Z.inj_mod, Z2Nat.id by lia.
  assert (E : (s mod Z.of_nat n = Z.rem s (Z.of_nat n) mod Z.of_nat n)%Z).
  { rewrite (Z.quot_rem' s (Z.of_nat n)) at 1. rewrite Z.add_comm, Z.mul_comm, Z.mod_add by lia. reflexivity. }
  rewrite E. replace (Z.rem s (Z.of_nat n) + Z.of_nat n)%Z with (Z.rem s (Z.of_nat n) + 1 * Z.of_nat n)%Z by lia.
  apply Z.mod_add. lia.
Qed.


Lemma rolled_lt n shift i : 0 < n -> rolled n shift i < n.
Proof. intros H. unfold rolled. pose proof (Z.mod_pos_bound (Z.of_nat i + shift) (Z.of_nat n) ltac:(lia)). lia. Qed.

Lemma rolled_back n shift i : i < n -> (rolled n shift i + n - norm_shift shift n) mod n = i.
Proof.
  intros H. pose proof (norm_shift_spec shift n ltac:(lia)) as HS.
  pose proof (Z.mod_pos_bound shift (Z.of_nat n) ltac:(lia)) as B1.
  pose proof (Z.mod_pos_bound (Z.of_nat i + shift) (Z.of_nat n) ltac:(lia)) as B2.
  apply Nat2Z.inj. unfold rolled. rewrite Nat2Z.inj_mod, Nat2Z.inj_sub, Nat2Z.inj_add, Z2Nat.id, HS by lia.
  replace ((Z.of_nat i + shift) mod Z.of_nat n + Z.of_nat n - shift mod Z.of_nat n)%Z
    with ((Z.of_nat i + shift) mod Z.of_nat n - shift mod Z.of_nat n + 1 * Z.of_nat n)%Z by lia.
  rewrite Z.mod_add by lia. rewrite <- Zminus_mod. replace (Z.of_nat i + shift - shift)%Z with (Z.of_nat i) by lia.
  apply Z.mod_small. lia.
Qed.

Lemma rolled_0 n shift i : i < n -> norm_shift shift n = 0 -> rolled n shift i = i.
Proof.
  intros H H0. pose proof (norm_shift_spec shift n ltac:(lia)) as HS. rewrite H0 in HS. cbn in HS.
  unfold rolled. rewrite Zplus_mod, <- HS, Z.add_0_r, Z.mod_mod by lia. rewrite Z.mod_small by lia. lia.
Qed.

Lemma rolled_inv n shift i : i < n -> rolled n (- shift) (rolled n shift i) = i.
Proof.
  intros H. unfold rolled.
  pose proof (Z.mod_pos_bound (Z.of_nat i + shift) (Z.of_nat n) ltac:(lia)) as B2.
  rewrite Z2Nat.id by lia. rewrite Zplus_mod_idemp_l. replace (Z.of_nat i + shift + - shift)%Z with (Z.of_nat i) by lia.
  rewrite Z.mod_small by lia. lia.
Qed.
Lemma rolled_inv' n shift i : i < n -> rolled n shift (rolled n (- shift) i) = i.
Proof. intros H. rewrite <- (Z.opp_involutive shift) at 1. apply rolled_inv. exact H. Qed.

(* splitting the source: first s elements of the result come from position n - s *)
Lemma rolled_split n shift i : i < n -> let s := norm_shift shift n in
  rolled n shift i = if i <? n - s then i + s else i - (n - s).
Proof.
  intros H s. pose proof (norm_shift_spec shift n ltac:(lia)) as HS. fold s in HS.
  pose proof (Z.mod_pos_bound shift (Z.of_nat n) ltac:(lia)) as B1.
  unfold rolled. rewrite Zplus_mod, <- HS. rewrite (Z.mod_small (Z.of_nat i)) by lia.
  destruct (Nat.ltb_spec i (n - s)).
  - rewrite Z.mod_small by lia. lia.
  - replace (Z.of_nat i + Z.of_nat s)%Z with (Z.of_nat (i - (n - s)) + 1 * Z.of_nat n)%Z by lia.
    rewrite Z.mod_add, Z.mod_small by lia. lia.
Qed.

Lemma nth_error_skipn {A} (l : list A) s k : nth_error (skipn s l) k = nth_error l (s + k).
Proof. revert s; induction l as [|x l IH]; intros [|s]; cbn; try reflexivity; [destruct k; reflexivity|apply IH]. Qed.
Lemma nth_error_firstn_lt {A} (l : list A) n k : k < n -> nth_error (firstn n l) k = nth_error l k.
Proof. revert n k; induction l as [|x l IH]; intros [|n] [|k] H; cbn; try reflexivity; try lia. apply IH. lia. Qed.

Section Roll.
Context {V : Type}.
Variables (zero : V) (via : V -> V).

Lemma copy_get (buf : list V) a typed : wf buf a ->
  exists out, copy_buf buf a typed = Ok out /\ length out = size a /\
    forall item idx, (0 < item)%Z -> inb idx (a_shape a) -> get out (fresh (a_shape a) item) idx = get buf a idx.
Proof using Type.
  intros W. destruct (copy_buf_spec buf a typed W) as (vals & E & EE & Len). exists vals. split; [exact E|]. split; [exact Len|].
  intros item idx HI Hi. pose proof (elems_get buf vals a (fun v => v) idx item HI EE Hi) as G.
  rewrite map_id in G. rewrite G. destruct (get buf a idx); reflexivity.
Qed.

Lemma roll_axis_spec typed (buf : list V) a shift ax axis n : wf buf a ->
  norm_axis (ndim a) ax = Some axis -> nth_error (a_shape a) axis = Some n ->
  (forall idx v, inb idx (a_shape a) -> get buf a idx = Some v -> via v = v) ->
  exists out, roll zero via typed buf a shift (Some ax) = Ok (a_shape a, out) /\ length out = size a /\
    forall item idx, (0 < item)%Z -> inb idx (a_shape a) ->
      get out (fresh (a_shape a) item) (upd idx axis (rolled n shift (nth axis idx 0))) = get buf a idx.
Proof.
  intros W HA Hn HV. unfold roll. rewrite HA. cbv zeta. rewrite (nth_error_nth _ _ _ Hn).
  destruct (copy_get buf a typed W) as (cp & EC & LC & GC).
  assert (Hax : axis < length (a_shape a)) by (apply nth_error_Some; congruence).
  destruct (Nat.eqb_spec n 0) as [H0|H0].
  { rewrite EC. cbn [bind]. exists cp. split; [reflexivity|]. split; [exact LC|]. intros item idx _ Hi.
    pose proof (nth_inb _ _ _ _ Hi Hn). lia. }
  destruct (Nat.eqb_spec (norm_shift shift n) 0) as [HS|HS].
  { rewrite EC. cbn [bind]. exists cp. split; [reflexivity|]. split; [exact LC|]. intros item idx HI Hi.
    pose proof (nth_inb _ _ _ _ Hi Hn). rewrite rolled_0 by assumption.
    rewrite upd_nth_same by (rewrite (inb_length _ _ Hi); exact Hax). apply GC; assumption. }
  set (src := fun di => upd di axis ((nth axis di 0 + n - norm_shift shift n) mod n)).
  assert (HSrc : forall di, inb di (a_shape a) -> inb (src di) (a_shape a)).
  { intros di Hd. unfold src. rewrite <- (upd_same (a_shape a) axis n Hn). apply inb_upd; [exact Hd|]. apply Nat.mod_upper_bound. exact H0. }
  destruct (scatter_all (a_shape a) (fun di => bind (read buf a (byte_offset_for a (src di))) (fun v => Ok (via v)))
              (fun di => vget zero buf a (src di)) (repeat zero (prod (a_shape a))) 1 eq_refl) as (ws & out & E1 & E2 & Len & HN).
  { apply repeat_length. }
  { intros idx Hi. rewrite (read_vget zero) by auto. cbn [bind]. f_equal. apply (HV (src idx)); [auto|]. apply vget_some; auto. }
  unfold size, ndim. match goal with |- context [mapM ?f ?l] => replace (mapM f l) with (@Ok (list (nat * V)) ws) end.
  2:{ rewrite <- E1. apply mapM_ext. intros x _. fold (src x). destruct (read buf a _); reflexivity. }
  cbn [bind]. rewrite E2. cbn [bind]. exists out. split; [reflexivity|]. split; [exact Len|]. intros item idx HI Hi.
  pose proof (nth_inb _ _ _ _ Hi Hn) as Hlt. pose proof (inb_length _ _ Hi) as HL.
  set (di := upd idx axis (rolled n shift (nth axis idx 0))).
  assert (Hd : inb di (a_shape a)).
  { unfold di. rewrite <- (upd_same (a_shape a) axis n Hn). apply inb_upd; [exact Hi|]. apply rolled_lt. lia. }
  specialize (HN di Hd). rewrite fresh_get in HN |- * by (exact HI || lia). rewrite HN.
  assert (ES : src di = idx).
  { unfold src, di. rewrite nth_upd_same by lia. rewrite rolled_back by exact Hlt. rewrite upd_upd. apply upd_nth_same. lia. }
  rewrite ES. symmetry. apply vget_some; assumption.
Qed.

(* flattening: row-major order unless the array is F- but not C-contiguous *)
Lemma ravel_arr_spec typed (buf : list V) a : wf buf a -> (a_c a = true \/ a_f a = false) ->
  (Z.of_nat (size a) * a_item a < 2 ^ 63)%Z ->
  exists fb fa, ravel_arr typed (buf, a) = Ok (fb, fa) /\ wf fb fa /\ a_shape fa = [size a] /\
    a_item fa = a_item a /\ elems fb fa = elems buf a /\ a_c fa = true /\
    exists stride, nth_error (a_strides fa) 0 = Some stride /\ (0 <= stride)%Z.
Proof using Type.
  clear zero via.
  intros W HF HB. unfold ravel_arr. cbn [fst snd]. destruct (a_c a) eqn:HC.
  - destruct (reshape_c_is_view buf a [size a] W HC) as (fa & E & S & WF & G).
    { cbn [prod]. unfold size. lia. }
    rewrite E. exists buf, fa. split; [reflexivity|]. split; [exact WF|]. split; [exact S|].
    assert (IT : a_item fa = a_item a /\ a_strides fa = c_strides [size a] (a_item a) /\ a_c fa = is_c_contiguous [size a] (c_strides [size a] (a_item a)) (a_item a)).
    { unfold reshape in E. destruct (negb (_ =? _)%Z); [discriminate|]. rewrite HC in E. cbn [negb andb] in E. injection E as <-. auto. }
    destruct IT as (IT & ST & CF). split; [exact IT|]. split.
    { unfold elems. rewrite S. unfold size. rewrite !all_idx_unrank. cbn [prod]. rewrite !map_map, Nat.mul_1_r.
      apply map_ext_in. intros k Hk. apply in_seq in Hk.
      assert (Hk' : inb [k] [size a]) by (apply inb_cons; split; [unfold size; lia|constructor]).
      destruct (G [k] Hk') as [_ GE]. rewrite rm_rank_eq, rm_unrank_eq in GE. cbn [rank prod] in GE.
      cbn [unrank prod]. rewrite Nat.div_1_r. rewrite GE. f_equal. f_equal. lia. }
    split; [rewrite CF; apply c_contig_c_strides|]. rewrite ST. exists (a_item a). split; [reflexivity|]. destruct W as (? & _). lia.
  - destruct HF as [HF|HF]; [discriminate|].
    assert (ER : reshape a [size a] = Err).
    { unfold reshape. destruct (negb (_ =? _)%Z); [reflexivity|]. rewrite HC, HF. reflexivity. }
    rewrite ER. destruct (copy_buf_spec buf a typed W) as (vals & E & EE & Len). rewrite E. cbn [bind].
    assert (HI : (0 < a_item a)%Z) by (destruct W; assumption).
    assert (WC : wf vals (fresh (a_shape a) (a_item a))).
    { apply fresh_wf; [exact HI| |exact Len]. rewrite Len. exact HB. }
    destruct (reshape_c_is_view vals (fresh (a_shape a) (a_item a)) [size a] WC eq_refl) as (fa & E2 & S & WF & G).
    { cbn [prod fresh a_shape]. unfold size. lia. }
    rewrite E2. exists vals, fa. split; [reflexivity|]. split; [exact WF|]. split; [exact S|].
    assert (IT : a_item fa = a_item a /\ a_strides fa = c_strides [size a] (a_item a) /\ a_c fa = is_c_contiguous [size a] (c_strides [size a] (a_item a)) (a_item a)).
    { unfold reshape in E2. destruct (negb (_ =? _)%Z); [discriminate|]. cbn [fresh a_c negb andb] in E2. injection E2 as <-. auto. }
    destruct IT as (IT & ST & CF). split; [exact IT|]. split.
    { rewrite EE. unfold elems. rewrite S. rewrite all_idx_unrank. cbn [prod]. rewrite map_map, Nat.mul_1_r.
      apply nth_error_ext. intros k. rewrite !nth_error_map', nth_error_seq.
      destruct (Nat.ltb_spec k (size a)) as [Hk|Hk].
      - cbn [option_map Nat.add].
        assert (Hk' : inb [k] [size a]) by (apply inb_cons; split; [exact Hk|constructor]).
        destruct (G [k] Hk') as [_ GE]. rewrite rm_rank_eq, rm_unrank_eq in GE. cbn [rank prod fresh a_shape] in GE.
        cbn [unrank prod]. rewrite Nat.div_1_r. rewrite GE. fold (fresh (a_shape a) (a_item a)). rewrite fresh_get by exact HI.
        replace (k * 1 + 0) with k by lia. rewrite rank_unrank by exact Hk.
        destruct (nth_error vals k) eqn:EN; [reflexivity|]. apply nth_error_None in EN. lia.
      - cbn [option_map]. assert (EN : nth_error vals k = None) by (apply nth_error_None; lia). rewrite EN. reflexivity. }
    split; [rewrite CF; apply c_contig_c_strides|]. rewrite ST. exists (a_item a). split; [reflexivity|]. lia.
Qed.

Lemma read_run_1d (fb : list V) fa vals st len : wf fb fa -> a_c fa = true -> elems fb fa = map Some vals ->
  st + len <= length vals ->
  read_run fb fa (Z.of_nat st * a_item fa) (a_item fa) len = Ok (firstn len (skipn st vals)).
Proof using zero.
  clear via.
  intros W HC E HL. unfold read_run.
  rewrite (mapM_ok _ (fun k => nth (st + k) vals zero)).
  - f_equal. apply nth_error_ext. intros k. rewrite nth_error_map', nth_error_seq.
    destruct (Nat.ltb_spec k len) as [Hk|Hk]; cbn [option_map Nat.add].
    + symmetry. rewrite (nth_error_firstn_lt _ _ _ Hk). rewrite nth_error_skipn. apply nth_error_nth'. lia.
    + symmetry. apply nth_error_None. rewrite firstn_length. lia.
  - intros k Hk. apply in_seq in Hk.
    replace (Z.of_nat st * a_item fa + Z.of_nat k * a_item fa)%Z with (Z.of_nat (st + k) * a_item fa)%Z by lia.
    apply (read_at fb fa vals); try assumption. apply nth_error_nth'. lia.
Qed.
End Roll.

Lemma concat_concat {A} (L : list (list (list A))) : concat (concat L) = concat (map (@concat A) L).
Proof. induction L as [|x L IH]; [reflexivity|]. cbn. rewrite concat_app, IH. reflexivity. Qed.

Section Roll2.
Context {V : Type}.
Variables (zero : V) (via : V -> V).

Lemma elems_len (buf : list V) a vals : elems buf a = map Some vals -> length vals = size a.
Proof. intros E. rewrite <- (map_length Some vals), <- E. unfold elems. rewrite map_length. apply all_idx_length. Qed.

Lemma roll_flat_spec typed (buf : list V) a vals shift : wf buf a -> elems buf a = map Some vals ->
  (a_c a = true \/ a_f a = false) -> (Z.of_nat (size a) * a_item a < 2 ^ 63)%Z ->
  exists out, roll zero via typed buf a shift None = Ok (a_shape a, out) /\ length out = size a /\
    forall i, i < size a -> nth_error out (rolled (size a) shift i) = nth_error vals i.
Proof.
  intros W E HF HB. unfold roll.
  destruct (copy_buf_spec buf a typed W) as (cp & EC & EE & LC).
  assert (cp = vals) as -> by (apply map_Some_inj; congruence).
  destruct (ravel_arr_spec typed buf a W HF HB) as (fb & fa & EF & WF & SF & IF & ELF & CF & _).
  rewrite EF. cbn [bind fst snd]. cbv zeta.
  assert (SZ : size fa = size a). { unfold size at 1. rewrite SF. cbn [prod]. lia. }
  rewrite SZ. destruct (Nat.eqb_spec (size a) 0) as [H0|H0].
  { rewrite EC. cbn [bind]. exists vals. split; [reflexivity|]. split; [exact LC|]. lia. }
  destruct (Nat.eqb_spec (norm_shift shift (size a)) 0) as [HS|HS].
  { rewrite EC. cbn [bind]. exists vals. split; [reflexivity|]. split; [exact LC|].
    intros i Hi. rewrite rolled_0 by assumption. reflexivity. }
  assert (HSB : norm_shift shift (size a) < size a) by (apply Nat.mod_upper_bound; exact H0).
  rewrite (read_run_1d zero fb fa vals) by (try assumption; try congruence; lia). cbn [bind].
  pose proof (read_run_1d zero fb fa vals 0 (size a - norm_shift shift (size a)) WF CF) as R2. cbn [Z.of_nat Z.mul skipn] in R2.
  rewrite R2 by (try congruence; lia). cbn [bind]. eexists. split; [reflexivity|]. split.
  { rewrite app_length, !firstn_length, skipn_length. lia. }
  intros i Hi. rewrite rolled_split by exact Hi. cbv zeta. set (s := norm_shift shift (size a)) in *.
  assert (L1 : length (firstn s (skipn (size a - s) vals)) = s) by (rewrite firstn_length, skipn_length; lia).
  destruct (Nat.ltb_spec i (size a - s)).
  - rewrite nth_error_app2 by lia. rewrite L1. rewrite nth_error_firstn_lt by lia. f_equal. lia.
  - rewrite nth_error_app1 by lia. rewrite nth_error_firstn_lt by lia. rewrite nth_error_skipn. f_equal. lia.
Qed.

(* ---- matrices ---- *)
Lemma flat2 i j n m : flat_idx [i; j] [n; m] = i * m + j.
Proof. cbn. lia. Qed.
Lemma inb2 i j n m : inb [i; j] [n; m] <-> i < n /\ j < m.
Proof. rewrite inb_cons, inb_cons. split; [intros (A & B & _); auto|intros [A B]; repeat split; auto; constructor]. Qed.

(* a set of matrix positions is written, the rest keeps the initial value *)
Lemma scatter2 n m (P : nat -> nat -> bool) (L : list (nat * nat)) (v : nat * nat -> V) item : (0 < item)%Z ->
  (forall i j, In (i, j) L <-> i < n /\ j < m /\ P i j = true) ->
  exists out, write_all (map (fun p => (fst p * m + snd p, v p)) L) (repeat zero (n * m)) = Ok out /\ length out = n * m /\
    forall i j, i < n -> j < m -> get out (fresh [n; m] item) [i; j] = Some (if P i j then v (i, j) else zero).
Proof.
  intros HI HL.
  destruct (scatter [n; m] L (fun p => [fst p; snd p]) v (repeat zero (n * m))) as (out & E & Len & HN & HO).
  { rewrite repeat_length. cbn [prod]. lia. }
  { intros [i j] H. apply HL in H. apply inb2. cbn. tauto. }
  { intros [i j] [i' j'] _ _ H. cbn in H. injection H as -> ->. reflexivity. }
  exists out. split.
  { rewrite <- E. f_equal. apply map_ext. intros [i j]. cbn [fst snd]. rewrite flat2. reflexivity. }
  split; [rewrite Len; cbn [prod]; lia|]. intros i j Hi Hj. rewrite fresh_get by exact HI.
  destruct (P i j) eqn:EP.
  - apply (HN (i, j)). apply HL. auto.
  - rewrite HO.
    + rewrite nth_error_repeat; [reflexivity|]. pose proof (rank_lt [n; m] [i; j] (proj2 (inb2 i j n m) (conj Hi Hj))) as H. cbn [prod] in H. lia.
    + apply inb2. auto.
    + intros [i' j'] H E'. cbn in E'. injection E' as -> ->. apply HL in H as (_ & _ & H). congruence.
Qed.

Lemma flat_map_pairs (P : nat -> nat -> bool) n m :
  let L := flat_map (fun i => flat_map (fun j => if P i j then [(i, j)] else []) (seq 0 m)) (seq 0 n) in
  forall i j, In (i, j) L <-> i < n /\ j < m /\ P i j = true.
Proof.
  intros L i j. unfold L. rewrite in_flat_map. split.
  - intros (x & Hx & H). apply in_flat_map in H as (y & Hy & H). destruct (P x y) eqn:E; [|contradiction].
    destruct H as [H|[]]. injection H as -> ->. apply in_seq in Hx, Hy. repeat split; auto; lia.
  - intros (Hi & Hj & HP). exists i. split; [apply in_seq; lia|]. apply in_flat_map. exists j. split; [apply in_seq; lia|].
    rewrite HP. left; reflexivity.
Qed.

Lemma map_flat_map {A B C} (f : B -> C) (g : A -> list B) l : map f (flat_map g l) = flat_map (fun x => map f (g x)) l.
Proof. rewrite !flat_map_concat_map, concat_map, map_map. reflexivity. Qed.

(* the offsets i + k stay inside isize *)
Definition k_ok (n : nat) (k : Z) : Prop := (- 2 ^ 63 <= k /\ Z.of_nat n + k < 2 ^ 63)%Z.

Lemma tri_spec (one : V) n m k item : (0 < item)%Z -> k_ok n k ->
  exists out, tri zero one n m k = Ok ([n; m], out) /\ length out = n * m /\
    forall i j, i < n -> j < m ->
      get out (fresh [n; m] item) [i; j] = Some (if (Z.of_nat j - Z.of_nat i <=? k)%Z then one else zero).
Proof.
  intros HI HK. unfold tri. set (P := fun i j => (Z.of_nat j - Z.of_nat i <=? k)%Z).
  set (L := flat_map (fun i => flat_map (fun j => if P i j then [(i, j)] else []) (seq 0 m)) (seq 0 n)).
  destruct (scatter2 n m P L (fun _ => one) item HI (flat_map_pairs P n m)) as (out & E & Len & HN).
  exists out. split; [|split; [exact Len|exact HN]].
  replace (flat_map _ (seq 0 n)) with (map (fun p => (fst p * m + snd p, one)) L); [rewrite E; reflexivity|].
  unfold L. rewrite map_flat_map. rewrite !flat_map_concat_map. f_equal. apply map_ext_in. intros i Hi. apply in_seq in Hi.
  rewrite map_flat_map. rewrite !flat_map_concat_map. f_equal. apply map_ext. intros j. unfold P.
  rewrite wrap_isize_id by (destruct HK; lia).
  destruct (Z.leb_spec (Z.of_nat j - Z.of_nat i) k), (Z.leb_spec (Z.of_nat j) (Z.of_nat i + k)); try lia; reflexivity.
Qed.


Lemma extract_triangle_spec (buf : list V) a k lower n m item : wf buf a -> a_shape a = [n; m] -> (0 < item)%Z -> k_ok n k ->
  exists out, extract_triangle zero buf a k lower = Ok ([n; m], out) /\ length out = n * m /\
    forall i j, i < n -> j < m ->
      get out (fresh [n; m] item) [i; j] = if in_tri lower k i j then get buf a [i; j] else Some zero.
Proof.
  intros W SA HI HK. unfold extract_triangle. rewrite SA.
  destruct (Nat.eqb_spec n 0) as [Hn|Hn]; [exists []; cbn [orb]; split; [reflexivity|]; split; [subst; reflexivity|lia]|].
  destruct (Nat.eqb_spec m 0) as [Hm|Hm]; [exists []; cbn [orb]; split; [reflexivity|]; split; [subst; cbn; lia|lia]|]. cbn [orb].
  set (v := fun p => vget zero buf a [fst p; snd p]).
  assert (VG : forall i j, i < n -> j < m -> get buf a [i; j] = Some (v (i, j))).
  { intros i j Hi Hj. apply vget_some; [exact W|]. rewrite SA. apply inb2. auto. }
  assert (Main : forall L, (forall i j, In (i, j) L <-> i < n /\ j < m /\ in_tri lower k i j = true) ->
     exists out, bind (write_all (map (fun p => (fst p * m + snd p, v p)) L) (repeat zero (n * m))) (fun out => Ok ([n; m], out)) = Ok ([n; m], out) /\
       length out = n * m /\
       forall i j, i < n -> j < m -> get out (fresh [n; m] item) [i; j] = if in_tri lower k i j then get buf a [i; j] else Some zero).
  { intros L HL. destruct (scatter2 n m (in_tri lower k) L v item HI HL) as (out & E & Len & HN). rewrite E. exists out.
    split; [reflexivity|]. split; [exact Len|]. intros i j Hi Hj. rewrite HN by assumption.
    destruct (in_tri lower k i j); [symmetry; apply VG; assumption|reflexivity]. }
  destruct (a_c a) eqn:HC.
  - set (L := flat_map (fun i => let '(s, e) := tri_cols lower m i k in map (fun c => (i, c)) (seq s (e - s))) (seq 0 n)).
    destruct (Main L) as (out & E & R).
    { intros i j. unfold L. rewrite in_flat_map. unfold in_tri, tri_cols. split.
      - intros (x & Hx & H). apply in_seq in Hx.
        destruct lower; apply in_map_iff in H as (c & Ec & Hc); injection Ec as -> ->; apply in_seq in Hc;
        rewrite !wrap_isize_id in Hc by (destruct HK; rewrite ?wrap_isize_id by lia; lia);
        (split; [lia|]); (split; [lia|]); apply Z.leb_le; lia.
      - intros (Hi & Hj & HP). exists i. split; [apply in_seq; lia|].
        destruct lower; apply in_map_iff; exists j; (split; [reflexivity|]); apply in_seq; apply Z.leb_le in HP;
        rewrite !wrap_isize_id by (destruct HK; rewrite ?wrap_isize_id by lia; lia); lia. }
    exists out. split; [|exact R]. rewrite <- E. clear E R.
    rewrite (mapM_ok _ (fun i => map (fun p => (fst p * m + snd p, v p)) (let '(s, e) := tri_cols lower m i k in map (fun c => (i, c)) (seq s (e - s))))).
    + cbn [bind]. unfold L. rewrite map_flat_map, flat_map_concat_map. reflexivity.
    + intros i Hi. apply in_seq in Hi. destruct (tri_cols lower m i k) as [s e] eqn:ET.
      assert (He : e <= m). { unfold tri_cols in ET. destruct lower; injection ET as <- <-; lia. }
      rewrite (mapM_ok _ (fun c => (i * m + c, v (i, c)))); [rewrite map_map; reflexivity|].
      intros c Hc. apply in_seq in Hc.
      assert (Hk : i * m + c < size a). { unfold size. rewrite SA. cbn [prod]. nia. }
      rewrite (contig_off buf a (i * m + c) W HC Hk). rewrite SA.
      replace (unrank [n; m] (i * m + c)) with [i; c].
      * rewrite (read_vget zero) by (try assumption; rewrite SA; apply inb2; lia). reflexivity.
      * rewrite <- (unrank_rank [n; m] [i; c]) by (apply inb2; lia). f_equal. cbn [rank prod]. lia.
  - set (L := flat_map (fun i => flat_map (fun j => if in_tri lower k i j then [(i, j)] else []) (seq 0 m)) (seq 0 n)).
    destruct (Main L (flat_map_pairs (in_tri lower k) n m)) as (out & E & R).
    exists out. split; [|exact R]. rewrite <- E. clear E R.
    rewrite (mapM_ok _ (fun i => map (fun j => if in_tri lower k i j then [(i * m + j, v (i, j))] else []) (seq 0 m))).
    + cbn [bind]. unfold L. rewrite map_flat_map, flat_map_concat_map.
      f_equal. f_equal. rewrite concat_concat. f_equal. rewrite map_map. apply map_ext. intros i.
      rewrite map_flat_map, flat_map_concat_map. f_equal. apply map_ext. intros j. destruct (in_tri lower k i j); reflexivity.
    + intros i Hi. apply in_seq in Hi. apply mapM_ok. intros j Hj. apply in_seq in Hj.
      rewrite wrap_isize_id by (destruct HK; lia).
      replace (if lower then (Z.of_nat j <=? Z.of_nat i + k)%Z else (Z.of_nat i + k <=? Z.of_nat j)%Z) with (in_tri lower k i j).
      2:{ unfold in_tri. destruct lower.
          - destruct (Z.leb_spec (Z.of_nat j - Z.of_nat i) k), (Z.leb_spec (Z.of_nat j) (Z.of_nat i + k)); try lia; reflexivity.
          - destruct (Z.leb_spec k (Z.of_nat j - Z.of_nat i)), (Z.leb_spec (Z.of_nat i + k) (Z.of_nat j)); try lia; reflexivity. }
      destruct (in_tri lower k i j); [|reflexivity].
      rewrite (read_vget zero) by (try assumption; rewrite SA; apply inb2; lia). reflexivity.
Qed.
End Roll2.
