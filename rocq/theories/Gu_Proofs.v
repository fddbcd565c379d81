(* Lemmas about gufunc dimension resolution and the gufunc loop. *)
From Coq Require Import Ascii.
From Verif Require Import Base Lists Arr_Spec Arr_Model Arr_Wf Arr_Proofs Bcast_Model Bcast_Proofs Elem_Proofs Gu_Spec Gu_Model.
Local Open Scope nat_scope.

(* ---------- broadcasting many shapes ---------- *)
Lemma broadcastable_refl s : broadcastable s s.
Proof.
  split; [lia|]. rewrite Nat.sub_diag. cbn [skipn]. unfold stretchable.
  induction s; constructor; auto.
Qed.
Lemma broadcastable_antisym a b : broadcastable a b -> broadcastable b a -> a = b.
Proof.
  intros [L1 S1] [L2 S2]. replace (length b - length a) with 0 in S1 by lia.
  replace (length a - length b) with 0 in S2 by lia. cbn [skipn] in *. clear L1 L2. unfold stretchable in *.
  revert S2. induction S1 as [|x y a b H S1 IH]; intros S2; [reflexivity|]. inversion S2; subst.
  f_equal; [lia|]. apply IH. assumption.
Qed.
Lemma joint_unique shs r r' : joint shs r -> joint shs r' -> r = r'.
Proof. intros [U L] [U' L']. apply broadcastable_antisym; [apply L, U'|apply L', U]. Qed.

Lemma broadcast_fold_joint shs : forall acc r, broadcast_fold acc shs = Some r <-> joint (acc :: shs) r.
Proof.
  induction shs as [|s shs IH]; intros acc r; cbn [broadcast_fold].
  - split.
    + intros [= ->]. split; [intros s [<-|[]]; apply broadcastable_refl|]. intros c H. apply H. left; reflexivity.
    + intros [U L]. f_equal. apply broadcastable_antisym.
      * apply U. left; reflexivity.
      * apply L. intros s [<-|[]]. apply broadcastable_refl.
  - destruct (broadcast_shapes acc s) as [q|] eqn:E.
    + rewrite IH. destruct (bshape_upper _ _ _ E) as [Ua Us].
      assert (HC : forall c, (forall t, In t (acc :: s :: shs) -> broadcastable t c) <->
                             (forall t, In t (q :: shs) -> broadcastable t c)).
      { intros c. split; intros H t Ht.
        - destruct Ht as [<-|Ht].
          + destruct (bshape_least acc s c) as (r' & E' & B'); [apply H; cbn; auto|apply H; cbn; auto|]. congruence.
          + apply H. right; right; exact Ht.
        - destruct Ht as [<-|[<-|Ht]].
          + apply (broadcastable_trans _ q); [exact Ua|apply H; left; reflexivity].
          + apply (broadcastable_trans _ q); [exact Us|apply H; left; reflexivity].
          + apply H. right; exact Ht. }
      unfold joint. split; intros [U L]; (split; [apply HC; exact U|intros c Hc; apply L, HC, Hc]).
    + split; [discriminate|]. intros [U _].
      destruct (bshape_least acc s r) as (r' & E' & _); [apply U; cbn; auto|apply U; cbn; auto|congruence].
Qed.
Lemma broadcast_multi_joint shs r : broadcast_multi_shapes shs = Some r <-> joint shs r.
Proof.
  destruct shs as [|s shs]; cbn [broadcast_multi_shapes].
  - assert (joint [] []) as HJ.
    { split; [intros s []|]. intros c _. split; [cbn; lia|]. cbn [length]. rewrite Nat.sub_0_r, skipn_all. constructor. }
    split; [intros [= <-]; exact HJ|]. intros H. f_equal. exact (joint_unique _ _ _ HJ H).
  - apply broadcast_fold_joint.
Qed.

(* ---------- names and sizes ---------- *)
Lemma chars_eqb_eq a b : chars_eqb a b = true <-> a = b.
Proof. unfold chars_eqb. destruct (list_eq_dec ascii_dec a b); split; intros; congruence. Qed.

Definition agrees (m : list (dimname * nat)) (sizes : dimname -> nat) : Prop :=
  forall d n, lookup d m = Some n -> sizes d = n.

Lemma bind_core_sound dims : forall core m m', length core = length dims -> bind_core dims core m = Some m' ->
  forall sizes, agrees m' sizes -> agrees m sizes /\ core = map sizes dims.
Proof.
  induction dims as [|d dims IH]; intros [|n core] m m' HL E sizes HA; try discriminate; cbn [bind_core] in E.
  - injection E as <-. split; [exact HA|reflexivity].
  - cbn [length] in HL. destruct (lookup d m) as [e|] eqn:EL.
    + destruct (Nat.eqb_spec e n) as [->|]; [|discriminate].
      destruct (IH core m m' ltac:(lia) E sizes HA) as [A ->]. split; [exact A|]. cbn [map].
      rewrite (A _ _ EL). reflexivity.
    + destruct (IH core _ m' ltac:(lia) E sizes HA) as [A ->]. split.
      * intros d' n' H'. apply A. cbn [lookup]. destruct (chars_eqb d' d) eqn:EQ; [|exact H'].
        apply chars_eqb_eq in EQ. subst. congruence.
      * cbn [map]. f_equal. symmetry. apply A. cbn [lookup].
        replace (chars_eqb d d) with true; [reflexivity|]. symmetry. apply chars_eqb_eq. reflexivity.
Qed.
Lemma bind_core_complete dims sizes : forall m, agrees m sizes ->
  exists m', bind_core dims (map sizes dims) m = Some m' /\ agrees m' sizes /\
    forall d, lookup d m' = None <-> lookup d m = None /\ ~ In d dims.
Proof.
  induction dims as [|d dims IH]; intros m HA; cbn [map bind_core].
  - exists m. split; [reflexivity|]. split; [exact HA|]. intros d. cbn [In]. tauto.
  - destruct (lookup d m) as [e|] eqn:EL.
    + rewrite (HA _ _ EL), Nat.eqb_refl. destruct (IH m HA) as (m' & E & A & HN).
      exists m'. split; [exact E|]. split; [exact A|]. intros d'. rewrite HN. cbn [In].
      split; [|tauto]. intros [H1 H2]. split; [exact H1|]. intros [<-|H3]; [congruence|tauto].
    + destruct (IH ((d, sizes d) :: m)) as (m' & E & A & HN).
      { intros d' n'. cbn [lookup]. destruct (chars_eqb d' d) eqn:EQ.
        - apply chars_eqb_eq in EQ. subst. intros [= <-]. reflexivity.
        - apply HA. }
      exists m'. split; [exact E|]. split; [exact A|]. intros d'. rewrite HN. cbn [lookup In].
      destruct (chars_eqb d' d) eqn:EQ.
      * apply chars_eqb_eq in EQ. subst. split; [intros [? _]; discriminate|]. intros [_ H]. tauto.
      * assert (d <> d') by (intros <-; assert (chars_eqb d d = true) by (apply chars_eqb_eq; reflexivity); congruence).
        tauto.
Qed.

Lemma bind_inputs_sound ins : forall shapes m loops m' loops', length shapes = length ins ->
  bind_inputs ins shapes m loops = Some (m', loops') ->
  exists ls, loops' = loops ++ ls /\ length ls = length ins /\
    forall sizes, agrees m' sizes ->
      agrees m sizes /\ shapes = zip_with (fun l dims => l ++ map sizes dims) ls ins.
Proof.
  induction ins as [|dims ins IH]; intros [|sh shapes] m loops m' loops' HL E; try discriminate; cbn [bind_inputs] in E.
  - injection E as <- <-. exists []. rewrite app_nil_r. split; [reflexivity|]. split; [reflexivity|].
    intros sizes HA. split; [exact HA|reflexivity].
  - cbn [length] in HL. destruct (Nat.ltb_spec (length sh) (length dims)) as [|Hge]; [discriminate|].
    set (k := length sh - length dims) in *.
    destruct (bind_core dims (skipn k sh) m) as [m1|] eqn:EB; [|discriminate].
    destruct (IH shapes m1 _ m' loops' ltac:(lia) E) as (ls & -> & HLs & HS).
    exists (firstn k sh :: ls). split; [rewrite <- app_assoc; reflexivity|]. split; [cbn [length]; lia|].
    intros sizes HA. destruct (HS sizes HA) as [A1 ->].
    destruct (bind_core_sound dims (skipn k sh) m m1) with (sizes := sizes) as [A EC];
      [rewrite skipn_length; subst k; lia|exact EB|exact A1|].
    split; [exact A|]. cbn [zip_with]. rewrite <- EC, firstn_skipn. reflexivity.
Qed.
Lemma bind_inputs_complete ins sizes : forall ls m loops, length ls = length ins -> agrees m sizes ->
  exists m', bind_inputs ins (zip_with (fun l dims => l ++ map sizes dims) ls ins) m loops = Some (m', loops ++ ls) /\
    agrees m' sizes /\ forall d, lookup d m' = None <-> lookup d m = None /\ ~ In d (concat ins).
Proof.
  induction ins as [|dims ins IH]; intros [|l ls] m loops HL HA; try discriminate; cbn [zip_with bind_inputs].
  - exists m. rewrite app_nil_r. split; [reflexivity|]. split; [exact HA|]. intros d. cbn [concat In]. tauto.
  - rewrite app_length, map_length. destruct (Nat.ltb_spec (length l + length dims) (length dims)); [lia|].
    replace (length l + length dims - length dims) with (length l) by lia.
    rewrite skipn_app, skipn_all, Nat.sub_diag. cbn [skipn app].
    rewrite firstn_app, firstn_all, Nat.sub_diag. cbn [firstn]. rewrite app_nil_r.
    destruct (bind_core_complete dims sizes m HA) as (m1 & -> & A1 & N1).
    destruct (IH ls m1 (loops ++ [l])) as (m' & -> & A' & N'); [cbn [length] in HL; lia|exact A1|].
    exists m'. split; [rewrite <- app_assoc; reflexivity|]. split; [exact A'|].
    intros d. rewrite N', N1. cbn [concat]. rewrite in_app_iff. tauto.
Qed.

(* the size of a name: the one forced by the operands, 1 for a name no operand mentions *)
Definition size_or_1 (ins : list (list dimname)) (sizes : dimname -> nat) (d : dimname) : nat :=
  if in_dec (list_eq_dec ascii_dec) d (concat ins) then sizes d else 1.

Lemma zip_with_length {A B C} (f : A -> B -> C) l m : length l = length m -> length (zip_with f l m) = length m.
Proof. revert m; induction l as [|x l IH]; intros [|y m] H; try discriminate; [reflexivity|]. cbn. rewrite IH; [reflexivity|]. cbn in H; lia. Qed.

Lemma resolve_complete sig shapes sizes loops loop : fits (g_in sig) shapes sizes loops loop ->
  exists d, resolve sig shapes = Some d /\ d_loop d = loop /\ d_loop_ndims d = map (@length nat) loops /\
    d_out_core d = map (map (size_or_1 (g_in sig) sizes)) (g_out sig).
Proof.
  intros (ES & HL & HJ). unfold resolve. rewrite ES, zip_with_length, Nat.eqb_refl by exact HL. cbn [negb].
  destruct (bind_inputs_complete (g_in sig) sizes loops [] [] HL) as (m & E & A & N); [intros ? ? ?; discriminate|].
  rewrite E. cbn [app]. apply broadcast_multi_joint in HJ. rewrite HJ.
  eexists. split; [reflexivity|]. cbn [d_loop d_loop_ndims d_out_core]. split; [reflexivity|]. split; [reflexivity|].
  apply map_ext. intros dims. apply map_ext. intros d. unfold size_or_1. specialize (N d). cbn [lookup] in N.
  destruct (in_dec (list_eq_dec ascii_dec) d (concat (g_in sig))) as [Hi|Hi].
  - destruct (lookup d m) as [n|] eqn:EL; [symmetry; apply A, EL|]. destruct N as [N _]. destruct (N eq_refl). tauto.
  - destruct N as [_ N]. rewrite N; [reflexivity|tauto].
Qed.
Lemma resolve_sound sig shapes d : resolve sig shapes = Some d ->
  exists sizes loops, fits (g_in sig) shapes sizes loops (d_loop d).
Proof.
  unfold resolve. destruct (Nat.eqb_spec (length shapes) (length (g_in sig))) as [HL|]; [|discriminate]. cbn [negb].
  destruct (bind_inputs (g_in sig) shapes [] []) as [[m loops]|] eqn:E; [|discriminate].
  destruct (broadcast_multi_shapes loops) as [loop|] eqn:EB; [|discriminate]. intros [= <-]. cbn [d_loop].
  destruct (bind_inputs_sound _ _ _ _ _ _ HL E) as (ls & EL & HLs & HS). cbn [app] in EL. subst ls.
  exists (fun d => match lookup d m with Some n => n | None => 1 end), loops.
  destruct (HS (fun d => match lookup d m with Some n => n | None => 1 end)) as [_ EQ].
  { intros d n Hd. rewrite Hd. reflexivity. }
  split; [exact EQ|]. split; [exact HLs|]. apply broadcast_multi_joint, EB.
Qed.

(* ---------- gufunc_subarray ---------- *)
Lemma gu_delta_dot k : forall sh st loop, length st = length sh -> k <= length sh -> k <= length loop ->
  gu_delta k sh st loop = dot (unstretch (firstn k sh) (firstn k loop)) (firstn k st).
Proof.
  induction k as [|k IH]; intros sh st loop H1 H2 H3; [reflexivity|].
  destruct sh as [|s sh]; [cbn in H2; lia|]. destruct st as [|x st]; [discriminate|]. destruct loop as [|i loop]; [cbn in H3; lia|].
  cbn [gu_delta firstn unstretch dot]. rewrite IH by (cbn in *; lia). reflexivity.
Qed.

(* the axes of the extracted array: a 0-d core is presented as one axis of length 1 *)
Definition core_shape (core : list nat) : list nat := match core with [] => [1] | _ => core end.
Definition core_index (core idx : list nat) : list nat := match core with [] => [] | _ => idx end.

Lemma core_index_inb core idx : inb idx (core_shape core) -> inb (core_index core idx) core.
Proof. destruct core; cbn [core_shape core_index]; [intros; constructor|auto]. Qed.

Lemma inb_zeros sh : 0 < prod sh -> inb (repeat 0 (length sh)) sh.
Proof. intros H. rewrite <- unrank_0. apply unrank_inb, H. Qed.

Definition core_strides (a : arr) (k : nat) (core : list nat) : list Z :=
  match core with [] => [a_item a] | _ => skipn k (a_strides a) end.

Lemma gu_sub_eq a lsh core loop : length (a_strides a) = length (a_shape a) -> a_shape a = lsh ++ core ->
  length lsh <= length loop ->
  (0 <= dot (unstretch lsh (firstn (length lsh) loop)) (firstn (length lsh) (a_strides a)))%Z ->
  gu_sub a loop (length lsh) =
    view_with a (dot (unstretch lsh (firstn (length lsh) loop)) (firstn (length lsh) (a_strides a)))
              (core_shape core) (core_strides a (length lsh) core).
Proof.
  intros W4 ES HLL HD. unfold gu_sub.
  assert (EK : Nat.min (length lsh) (ndim a) = length lsh) by (unfold ndim; rewrite ES, app_length; lia).
  rewrite EK, gu_delta_dot; [|exact W4|rewrite ES, app_length; lia|exact HLL].
  rewrite ES, firstn_app, Nat.sub_diag, firstn_all. cbn [firstn]. rewrite app_nil_r.
  rewrite Z.max_l by exact HD.
  rewrite skipn_app, Nat.sub_diag, skipn_all. cbn [skipn app]. destruct core; reflexivity.
Qed.

Lemma gu_sub_dot a lsh core pre c : length (a_strides a) = length (a_shape a) -> a_shape a = lsh ++ core ->
  length pre = length lsh -> inb c (core_shape core) ->
  (dot pre (firstn (length lsh) (a_strides a)) + dot c (core_strides a (length lsh) core)
   = dot (pre ++ core_index core c) (a_strides a))%Z.
Proof.
  intros W4 ES HLp Hc. rewrite <- (firstn_skipn (length lsh) (a_strides a)) at 2.
  rewrite dot_app by (rewrite firstn_length, W4, ES, app_length; lia).
  unfold core_strides. destruct core as [|s core]; cbn [core_shape core_index] in *; [|reflexivity].
  inversion Hc as [|i x c' y Hi Hc']; subst. inversion Hc'; subst. assert (i = 0) by lia. subst.
  cbn [dot]. lia.
Qed.

(* the addresses of the extracted array *)
Lemma gu_sub_addr {V} (buf : list V) a lsh core loop c : wf buf a -> a_shape a = lsh ++ core ->
  length lsh <= length loop ->
  inb (unstretch lsh (firstn (length lsh) loop)) lsh ->
  (0 <= dot (unstretch lsh (firstn (length lsh) loop)) (firstn (length lsh) (a_strides a)))%Z ->
  inb c (core_shape core) ->
  (a_off (gu_sub a loop (length lsh)) + dot c (a_strides (gu_sub a loop (length lsh))) =
   a_off a + dot (unstretch lsh (firstn (length lsh) loop) ++ core_index core c) (a_strides a))%Z.
Proof.
  intros W ES HLL HI HD Hc. pose proof W as (W1 & W2 & W3 & W4 & W5 & _).
  rewrite (gu_sub_eq a lsh core) by assumption. unfold view_with. cbn [a_off a_strides].
  set (pre := unstretch lsh (firstn (length lsh) loop)) in *.
  assert (HLp : length pre = length lsh) by (apply inb_length, HI).
  assert (HP : 0 < prod (core_shape core)) by (eapply inb_prod_pos; exact Hc).
  pose proof (inb_zeros _ HP) as HZ.
  assert (HB : inb (pre ++ core_index core (repeat 0 (length (core_shape core)))) (a_shape a)).
  { rewrite ES. apply inb_app; [exact HLp|]. split; [exact HI|apply core_index_inb, HZ]. }
  pose proof (wf_addr buf a _ W HB) as HA.
  rewrite <- (gu_sub_dot a lsh core pre _ W4 ES HLp HZ), dot_zeros in HA.
  rewrite <- (gu_sub_dot a lsh core pre _ W4 ES HLp Hc).
  unfold wrap_usize. rewrite Z.mod_small by (unfold two64; lia). lia.
Qed.

Lemma gu_sub_is_view {V} (buf : list V) a lsh core loop : wf buf a -> a_shape a = lsh ++ core ->
  length lsh <= length loop ->
  inb (unstretch lsh (firstn (length lsh) loop)) lsh ->
  (0 <= dot (unstretch lsh (firstn (length lsh) loop)) (firstn (length lsh) (a_strides a)))%Z ->
  is_view buf a (gu_sub a loop (length lsh)) (core_shape core)
          (fun c => unstretch lsh (firstn (length lsh) loop) ++ core_index core c).
Proof.
  intros W ES HLL HI HD. pose proof W as (W1 & W2 & W3 & W4 & W5 & _).
  pose proof (fun c => gu_sub_addr buf a lsh core loop c W ES HLL HI HD) as HADDR.
  rewrite (gu_sub_eq a lsh core loop W4 ES HLL HD) in *.
  set (pre := unstretch lsh (firstn (length lsh) loop)) in *.
  assert (HLp : length pre = length lsh) by (apply inb_length, HI).
  assert (HB : forall c, inb c (core_shape core) -> inb (pre ++ core_index core c) (a_shape a)).
  { intros c Hc. rewrite ES. apply inb_app; [exact HLp|]. split; [exact HI|apply core_index_inb, Hc]. }
  assert (HG : forall c, inb c (core_shape core) ->
     get buf (view_with a (dot pre (firstn (length lsh) (a_strides a))) (core_shape core) (core_strides a (length lsh) core)) c
     = get buf a (pre ++ core_index core c)).
  { intros c Hc. unfold get, byte_offset_for. rewrite HADDR by exact Hc. reflexivity. }
  split; [reflexivity|]. split.
  - unfold wf. split; [exact W1|]. split; [exact W2|]. split; [apply Z.mod_pos_bound; reflexivity|].
    split.
    { cbn [view_with a_strides a_shape]. unfold core_strides. rewrite ES, app_length in W4. destruct core; cbn [core_shape]; [reflexivity|].
      rewrite skipn_length. lia. }
    split; [|split; intros E; exact E].
    intros c Hc. change (inb c (core_shape core)) in Hc. rewrite HG by exact Hc. apply W5, HB, Hc.
  - intros c Hc. split; [apply HB, Hc|apply HG, Hc].
Qed.

(* ---------- the loop ---------- *)
Lemma rank_app l c lsh csh : length l = length lsh -> rank (lsh ++ csh) (l ++ c) = rank lsh l * prod csh + rank csh c.
Proof.
  revert l; induction lsh as [|s lsh IH]; intros [|i l] H; try discriminate; [reflexivity|].
  cbn [app rank]. rewrite IH by (cbn in H; lia). rewrite prod_app. nia.
Qed.
Lemma rank_inj sh i j : inb i sh -> inb j sh -> rank sh i = rank sh j -> i = j.
Proof. intros H1 H2 E. rewrite <- (unrank_rank sh i), <- (unrank_rank sh j) by assumption. congruence. Qed.

(* what one kernel call has to do at loop position l: store the values G l in the
   cells of l's core, nothing else *)
Definition call_ok {W} (lsh csh : list nat) (f : list W -> res (list W)) (l : list nat) (G : list nat -> W) : Prop :=
  forall buf, length buf = prod (lsh ++ csh) ->
  exists buf', f buf = Ok buf' /\ length buf' = length buf /\
    (forall c, inb c csh -> nth_error buf' (rank (lsh ++ csh) (l ++ c)) = Some (G c)) /\
    (forall q, (forall c, inb c csh -> q <> rank (lsh ++ csh) (l ++ c)) -> nth_error buf' q = nth_error buf q).

Lemma foldM_calls {W} lsh csh (f : list W -> list nat -> res (list W)) (G : list nat -> list nat -> W) L :
  NoDup L -> (forall l, In l L -> inb l lsh) ->
  (forall l, In l L -> call_ok lsh csh (fun b => f b l) l (G l)) ->
  forall buf, length buf = prod (lsh ++ csh) ->
  exists buf', foldM f L buf = Ok buf' /\ length buf' = length buf /\
    (forall l c, In l L -> inb c csh -> nth_error buf' (rank (lsh ++ csh) (l ++ c)) = Some (G l c)) /\
    (forall q, (forall l c, In l L -> inb c csh -> q <> rank (lsh ++ csh) (l ++ c)) -> nth_error buf' q = nth_error buf q).
Proof.
  induction L as [|l L IH]; intros ND HI HK buf HB; cbn [foldM].
  - exists buf. split; [reflexivity|]. split; [reflexivity|]. split; [intros l c []|reflexivity].
  - inversion ND as [|l' L' Hnin ND']; subst.
    destruct (HK l (or_introl eq_refl) buf HB) as (b1 & -> & L1 & W1 & U1). cbn [bind].
    destruct (IH ND' (fun l' H => HI l' (or_intror H)) (fun l' H => HK l' (or_intror H)) b1 ltac:(congruence))
      as (b2 & -> & L2 & W2 & U2).
    exists b2. split; [reflexivity|]. split; [congruence|]. split.
    + intros l' c [<-|Hl] Hc; [|apply W2; assumption].
      rewrite U2; [apply W1, Hc|]. intros l' c' Hl' Hc' EQ.
      pose proof (HI l (or_introl eq_refl)) as I1. pose proof (HI l' (or_intror Hl')) as I2.
      apply rank_inj in EQ.
      * apply Hnin. apply (f_equal (firstn (length l))) in EQ.
        rewrite firstn_app, Nat.sub_diag, firstn_all in EQ. cbn [firstn] in EQ. rewrite app_nil_r in EQ.
        rewrite (inb_length _ _ I1), <- (inb_length _ _ I2) in EQ.
        rewrite firstn_app, Nat.sub_diag, firstn_all in EQ. cbn [firstn] in EQ. rewrite app_nil_r in EQ. congruence.
      * apply inb_app; [apply inb_length, I1|auto].
      * apply inb_app; [apply inb_length, I2|auto].
    + intros q Hq. rewrite U2.
      * apply U1. intros c Hc. apply Hq; [left; reflexivity|exact Hc].
      * intros l' c Hl' Hc. apply Hq; [right; exact Hl'|exact Hc].
Qed.

Lemma all_idx_nodup sh : NoDup (all_idx sh).
Proof.
  rewrite all_idx_unrank. apply (NoDup_map_inv (rank sh)). rewrite map_map.
  rewrite (map_ext_in _ (fun k => k)); [rewrite map_id; apply seq_NoDup|].
  intros k Hk. apply in_seq in Hk. apply rank_unrank. lia.
Qed.

Theorem gufunc_call_spec {V W} sig (kernel : list (list V * arr) -> arr -> list W -> res (list W))
        inputs zero item d core (G : list nat -> list nat -> W) :
  (0 < item)%Z ->
  resolve sig (map (fun x => a_shape (snd x)) inputs) = Some d -> d_out_core d = [core] ->
  (forall l, inb l (d_loop d) -> call_ok (d_loop d) core
     (fun buf => kernel (zip_with (fun x k => (fst x, gu_sub (snd x) l k)) inputs (d_loop_ndims d))
                        (gu_sub (fresh (d_loop d ++ core) item) l (length (d_loop d))) buf) l (G l)) ->
  exists out, gufunc_call sig kernel inputs zero item = Ok (out, fresh (d_loop d ++ core) item) /\
    length out = prod (d_loop d ++ core) /\
    forall l c, inb l (d_loop d) -> inb c core ->
      get out (fresh (d_loop d ++ core) item) (l ++ c) = Some (G l c).
Proof.
  intros HI HR HC HK. unfold gufunc_call. rewrite HR, HC, odometer_all. unfold output_shape.
  destruct (foldM_calls (d_loop d) core
     (fun buf loop => kernel (zip_with (fun x k => (fst x, gu_sub (snd x) loop k)) inputs (d_loop_ndims d))
        (gu_sub (fresh (d_loop d ++ core) item) loop (length (d_loop d))) buf) G (all_idx (d_loop d)))
     with (buf := repeat zero (prod (d_loop d ++ core))) as (out & E & HL & HW & _).
  - apply all_idx_nodup.
  - intros l Hl. apply in_all_idx, Hl.
  - intros l Hl. apply HK, in_all_idx, Hl.
  - apply repeat_length.
  - rewrite E. cbn [bind]. exists out. split; [reflexivity|]. split; [rewrite HL; apply repeat_length|].
    intros l c Hl Hc. rewrite fresh_get by exact HI. apply HW; [apply in_all_idx, Hl|exact Hc].
Qed.

Lemma unstretch_inb sh nsh idx : stretchable sh nsh -> inb idx nsh -> inb (unstretch sh idx) sh.
Proof.
  intros HS. revert idx. induction HS as [|s n sh nsh H HS IH]; intros idx Hi; inversion Hi; subst; cbn [unstretch]; constructor.
  - destruct (Nat.eqb_spec s 1); lia.
  - apply IH. assumption.
Qed.
Lemma dot_nonneg idx st : Forall (fun s => (0 <= s)%Z) st -> (0 <= dot idx st)%Z.
Proof.
  intros H. revert idx. induction H as [|s st Hs H IH]; intros [|i idx]; cbn [dot]; try (specialize (IH idx)); nia.
Qed.
