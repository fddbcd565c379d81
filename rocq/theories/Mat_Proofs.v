(* Lemmas about matrix products. *)
From Verif Require Import Base Lists Arr_Spec Arr_Model Arr_Wf Arr_Proofs Bcast_Model Bcast_Proofs Idx_Model Elem_Proofs Int_Model Int_Proofs Red_Model Red_Scan Promo_Spec Promo_Model Gu_Spec Gu_Model Gu_Proofs Mat_Model.
Local Open Scope nat_scope.

(* ---------- addresses ---------- *)
Lemma wf_stride_div {V} (buf : list V) a m n i j : wf buf a -> a_shape a = [m; n] -> i < m -> j < n ->
  forall s0 s1, a_strides a = [s0; s1] ->
  (Z.of_nat i * s0 = a_item a * (Z.of_nat i * Z.quot s0 (a_item a)))%Z /\
  (Z.of_nat j * s1 = a_item a * (Z.of_nat j * Z.quot s1 (a_item a)))%Z.
Proof.
  intros W ES Hi Hj s0 s1 EST. pose proof W as (W1 & _ & _ & _ & W5 & _).
  assert (HM : forall x y, x < m -> y < n -> ((a_off a + (Z.of_nat x * s0 + Z.of_nat y * s1)) mod a_item a = 0)%Z).
  { intros x y Hx Hy. destruct (W5 [x; y]) as [v Hv]; [rewrite ES; repeat constructor; assumption|].
    unfold get, byte_offset_for in Hv. rewrite EST in Hv. cbn [dot] in Hv.
    apply load_some in Hv; [|exact W1]. rewrite Z.add_0_r in Hv. apply Hv. }
  assert (Q : forall x s, (x = 0 \/ (s mod a_item a = 0)%Z) -> (Z.of_nat x * s = a_item a * (Z.of_nat x * Z.quot s (a_item a)))%Z).
  { intros x s [->|Hs]; [lia|]. apply Z.mod_divide in Hs; [|lia]. destruct Hs as [q ->].
    rewrite Z.quot_mul by lia. lia. }
  split; apply Q.
  - destruct (Nat.eq_dec i 0) as [->|]; [left; reflexivity|right].
    pose proof (HM 0 j ltac:(lia) Hj) as H0. pose proof (HM 1 j ltac:(lia) Hj) as H1.
    apply Z.mod_divide in H0; [|lia]. apply Z.mod_divide in H1; [|lia]. destruct H0 as [q0 H0], H1 as [q1 H1].
    apply Z.mod_divide; [lia|]. exists (q1 - q0)%Z. lia.
  - destruct (Nat.eq_dec j 0) as [->|]; [left; reflexivity|right].
    pose proof (HM i 0 Hi ltac:(lia)) as H0. pose proof (HM i 1 Hi ltac:(lia)) as H1.
    apply Z.mod_divide in H0; [|lia]. apply Z.mod_divide in H1; [|lia]. destruct H0 as [q0 H0], H1 as [q1 H1].
    apply Z.mod_divide; [lia|]. exists (q1 - q0)%Z. lia.
Qed.

Lemma wrap_ex z : exists q, wrap_usize z = (z + q * two64)%Z.
Proof. exists (- (z / two64))%Z. unfold wrap_usize. rewrite Z.mod_eq by discriminate. ring. Qed.
Lemma elem_addr_spec {V} (buf : list V) a m n i j s0 s1 : wf buf a -> a_shape a = [m; n] -> i < m -> j < n ->
  a_strides a = [s0; s1] ->
  elem_addr (a_item a) (a_off a) s0 s1 i j = (a_off a + dot [i; j] (a_strides a))%Z.
Proof.
  intros W ES Hi Hj EST. destruct (wf_stride_div buf a m n i j W ES Hi Hj s0 s1 EST) as [E0 E1].
  assert (HA : (0 <= a_off a + dot [i; j] (a_strides a) < 2 ^ 63)%Z).
  { apply (wf_addr buf); [exact W|]. rewrite ES. repeat constructor; assumption. }
  unfold elem_addr.
  destruct (wrap_ex (Z.quot s0 (a_item a))) as [q0 ->]. destruct (wrap_ex (Z.quot s1 (a_item a))) as [q1 ->].
  match goal with |- wrap_usize (_ + _ * wrap_usize ?z) = _ => destruct (wrap_ex z) as [q ->] end.
  rewrite EST in *. cbn [dot] in *.
  transitivity (((a_off a + (Z.of_nat i * s0 + (Z.of_nat j * s1 + 0))) + (a_item a * (Z.of_nat i * q0 + Z.of_nat j * q1 + q)) * two64) mod two64)%Z.
  - unfold wrap_usize. f_equal. rewrite E0, E1. ring.
  - rewrite Z.mod_add by discriminate. apply Z.mod_small. unfold two64. lia.
Qed.

Lemma two_strides {V} (buf : list V) a m n : wf buf a -> a_shape a = [m; n] -> exists s0 s1, a_strides a = [s0; s1].
Proof.
  intros (_ & _ & _ & W4 & _) ES. rewrite ES in W4. destruct (a_strides a) as [|s0 [|s1 [|]]]; try discriminate. eauto.
Qed.

Section P.
Context {V : Type}.

Lemma peek_spec (buf : list V) a m n i j es : wf buf a -> a_shape a = [m; n] -> a_item a = es -> i < m -> j < n ->
  peek es (buf, a) i j = of_load (get buf a [i; j]).
Proof.
  intros W ES <- Hi Hj. destruct (two_strides _ _ _ _ W ES) as (s0 & s1 & EST).
  unfold peek, nth_res. cbn [snd fst]. rewrite EST. cbn [nth_error bind].
  rewrite (elem_addr_spec buf a m n) by assumption. reflexivity.
Qed.

(* ---------- loops of writes ---------- *)
Lemma foldM_ext {A S} (f g : S -> A -> res S) L : (forall s x, In x L -> f s x = g s x) ->
  forall s, foldM f L s = foldM g L s.
Proof.
  induction L as [|x L IH]; intros H s; [reflexivity|]. cbn [foldM]. rewrite H by (left; reflexivity).
  destruct (g s x); cbn [bind]; try reflexivity. apply IH. intros; apply H; right; assumption.
Qed.
Lemma foldM_app {A S} (f : S -> A -> res S) L1 L2 s : foldM f (L1 ++ L2) s = bind (foldM f L1 s) (foldM f L2).
Proof.
  revert s; induction L1 as [|x L1 IH]; intros s; [reflexivity|]. cbn [app foldM].
  destruct (f s x); cbn [bind]; auto.
Qed.
Lemma foldM_nested {A B S} (f : S -> A * B -> res S) (g : A -> list B) L : forall s,
  foldM (fun s i => foldM (fun s j => f s (i, j)) (g i) s) L s = foldM f (flat_map (fun i => map (pair i) (g i)) L) s.
Proof.
  induction L as [|x L IH]; intros s; [reflexivity|]. cbn [foldM flat_map]. rewrite foldM_app.
  assert (E : forall M s, foldM (fun s j => f s (x, j)) M s = foldM f (map (pair x) M) s).
  { induction M as [|y M IHM]; intros s'; [reflexivity|]. cbn [map foldM]. destruct (f s' (x, y)); cbn [bind]; auto. }
  rewrite E. destruct (foldM f (map (pair x) (g x)) s); cbn [bind]; auto.
Qed.
Lemma foldM_write_all {A W} (f : list W -> A -> res (list W)) (pos : A -> nat) (v : A -> W) N L :
  (forall x, In x L -> pos x < N /\ forall buf, length buf = N -> f buf x = Ok (upd buf (pos x) (v x))) ->
  forall buf, length buf = N -> foldM f L buf = write_all (map (fun x => (pos x, v x)) L) buf.
Proof.
  induction L as [|x L IH]; intros H buf HB; [reflexivity|]. cbn [foldM map write_all].
  destruct (H x (or_introl eq_refl)) as [HP HF]. rewrite HF by exact HB. cbn [bind].
  rewrite HB. destruct (Nat.ltb_spec (pos x) N); [|lia].
  apply IH; [|rewrite upd_length; exact HB]. intros y Hy. apply H. right; exact Hy.
Qed.
Lemma foldM_acc {A B S} (rd : A -> res B) (v : A -> B) (g : S -> B -> S) L : (forall x, In x L -> rd x = Ok (v x)) ->
  forall s, foldM (fun s x => bind (rd x) (fun y => Ok (g s y))) L s = Ok (fold_left (fun s x => g s (v x)) L s).
Proof.
  induction L as [|x L IH]; intros H s; [reflexivity|]. cbn [foldM fold_left].
  rewrite H by (left; reflexivity). cbn [bind]. apply IH. intros; apply H; right; assumption.
Qed.

(* a two-dimensional core written cell by cell *)
Lemma call_ok_cells (lsh : list nat) m p (f : list V -> res (list V)) (step : list V -> nat * nat -> res (list V)) l (v : nat -> nat -> V) :
  inb l lsh ->
  (forall buf, length buf = prod (lsh ++ [m; p]) ->
     f buf = foldM step (flat_map (fun i => map (pair i) (seq 0 p)) (seq 0 m)) buf) ->
  (forall i j, i < m -> j < p -> forall buf, length buf = prod (lsh ++ [m; p]) ->
     step buf (i, j) = Ok (upd buf (rank (lsh ++ [m; p]) (l ++ [i; j])) (v i j))) ->
  call_ok lsh [m; p] f l (fun c => v (nth 0 c 0) (nth 1 c 0)).
Proof.
  intros HL HF HS buf HB. rewrite HF by exact HB.
  set (L := flat_map (fun i => map (pair i) (seq 0 p)) (seq 0 m)).
  assert (HIN : forall x, In x L <-> fst x < m /\ snd x < p).
  { intros [i j]. unfold L. rewrite in_flat_map. split.
    - intros (i' & Hi & Hj). apply in_map_iff in Hj as (j' & [= <- <-] & Hj). apply in_seq in Hi, Hj. cbn; lia.
    - cbn [fst snd]. intros [Hi Hj]. exists i. split; [apply in_seq; lia|]. apply in_map_iff. exists j. split; [reflexivity|apply in_seq; lia]. }
  assert (HIB : forall i j, i < m -> j < p -> inb (l ++ [i; j]) (lsh ++ [m; p])).
  { intros i j Hi Hj. apply inb_app; [apply inb_length, HL|]. split; [exact HL|repeat constructor; assumption]. }
  rewrite (foldM_write_all step (fun x => rank (lsh ++ [m; p]) (l ++ [fst x; snd x])) (fun x => v (fst x) (snd x)) (prod (lsh ++ [m; p]))).
  2:{ intros [i j] Hx. apply HIN in Hx. cbn [fst snd] in *. split.
      - apply rank_lt, HIB; apply Hx.
      - intros b Hb. apply HS; [apply Hx|apply Hx|exact Hb]. }
  2:{ exact HB. }
  destruct (write_all_spec (map (fun x => (rank (lsh ++ [m; p]) (l ++ [fst x; snd x]), v (fst x) (snd x))) L) buf) as (out & E & HLen & HN).
  { intros q w Hin. apply in_map_iff in Hin as (x & [= <- <-] & Hx). apply HIN in Hx. rewrite HB. apply rank_lt, HIB; apply Hx. }
  exists out. split; [exact E|]. split; [exact HLen|]. split.
  - intros c Hc. inversion Hc as [|i x c1 y Hi Hc1]; subst. inversion Hc1 as [|j x' c2 y' Hj Hc2]; subst. inversion Hc2; subst.
    cbn [nth]. apply (HN (rank (lsh ++ [m; p]) (l ++ [i; j]))).
    + apply in_map_iff. exists (i, j). split; [reflexivity|]. apply HIN. cbn; auto.
    + intros w Hin. apply in_map_iff in Hin as ([i' j'] & Ex & Hx). cbn [fst snd] in Ex. injection Ex as Er <-.
      apply HIN in Hx. cbn [fst snd] in Hx. apply rank_inj in Er; [|apply HIB; lia|apply HIB; lia].
      apply app_inv_head in Er. injection Er as -> ->. reflexivity.
  - intros q Hq. apply (HN q). intros w Hin. apply in_map_iff in Hin as (x & [= Er _] & Hx). apply HIN in Hx.
    apply (Hq [fst x; snd x]); [repeat constructor; apply Hx|congruence].
Qed.

(* writing one cell of the output's core *)
Lemma fresh_strides_nonneg sh item : (0 <= item)%Z -> forall k idx, (0 <= dot idx (firstn k (c_strides sh item)))%Z.
Proof.
  intros HI k. assert (HP : Forall (fun z => (0 <= z)%Z) (c_strides sh item)).
  { unfold c_strides.
    assert (H : Forall (fun z => (0 <= z)%Z) (fst (c_strides_aux sh item)) /\ (0 <= snd (c_strides_aux sh item))%Z).
    { induction sh as [|s sh IH]; cbn [c_strides_aux]; [cbn; auto|].
      destruct (c_strides_aux sh item) as [st x]. cbn [fst snd] in *. destruct IH. split; [constructor; assumption|nia]. }
    apply H. }
  revert k. induction HP as [|x st Hx HP IH]; intros [|k] [|i idx]; cbn [firstn dot]; try lia.
  specialize (IH k idx). nia.
Qed.
Lemma unstretch_id sh idx : inb idx sh -> unstretch sh idx = idx.
Proof.
  induction 1 as [|i s idx sh Hi H IH]; [reflexivity|]. cbn [unstretch]. rewrite IH.
  destruct (Nat.eqb_spec s 1); f_equal; lia.
Qed.

Lemma out_sub {T} (buf : list T) lsh core item l : (0 < item)%Z -> (Z.of_nat (prod (lsh ++ core)) * item < 2 ^ 63)%Z ->
  length buf = prod (lsh ++ core) -> inb l lsh ->
  let c := gu_sub (fresh (lsh ++ core) item) l (length lsh) in
  is_view buf (fresh (lsh ++ core) item) c (core_shape core) (fun x => l ++ core_index core x) /\
  forall x, inb x (core_shape core) ->
    (a_off c + dot x (a_strides c) = item * Z.of_nat (rank (lsh ++ core) (l ++ core_index core x)))%Z.
Proof.
  intros HI HB HL Hl c.
  assert (W : wf buf (fresh (lsh ++ core) item)) by (apply fresh_wf; [exact HI|rewrite HL; exact HB|exact HL]).
  pose proof (inb_length _ _ Hl) as HLl.
  assert (EU : unstretch lsh (firstn (length lsh) l) = l).
  { rewrite <- HLl, firstn_all. apply unstretch_id, Hl. }
  assert (HN : (0 <= dot (unstretch lsh (firstn (length lsh) l)) (firstn (length lsh) (a_strides (fresh (lsh ++ core) item))))%Z).
  { apply fresh_strides_nonneg. lia. }
  split.
  - pose proof (gu_sub_is_view buf (fresh (lsh ++ core) item) lsh core l W eq_refl ltac:(lia)) as H.
    rewrite EU in *. apply H; assumption.
  - intros x Hx. unfold c.
    pose proof (gu_sub_addr buf (fresh (lsh ++ core) item) lsh core l x W eq_refl ltac:(lia)) as H.
    rewrite EU in *. rewrite H by assumption. cbn [fresh a_off a_strides]. rewrite dot_c_strides. lia.
Qed.

Lemma store_rank {W} (buf : list W) item k v : (0 < item)%Z -> k < length buf ->
  store buf item (item * Z.of_nat k) v = Ok (upd buf k v).
Proof.
  intros HI HK. unfold store. rewrite (Z.mul_comm item), Z.mod_mul, Z.div_mul by lia. rewrite Z.eqb_refl, Nat2Z.id.
  replace (0 <=? Z.of_nat k * item)%Z with true by nia. replace (Z.of_nat k <? Z.of_nat (length buf))%Z with true by lia.
  reflexivity.
Qed.

Lemma poke_spec (buf : list V) lsh m p item l i j v : (0 < item)%Z -> (Z.of_nat (prod (lsh ++ [m; p])) * item < 2 ^ 63)%Z ->
  length buf = prod (lsh ++ [m; p]) -> inb l lsh -> i < m -> j < p ->
  poke item buf (gu_sub (fresh (lsh ++ [m; p]) item) l (length lsh)) i j v
  = Ok (upd buf (rank (lsh ++ [m; p]) (l ++ [i; j])) v).
Proof.
  intros HI HB HL Hl Hi Hj.
  destruct (out_sub buf lsh [m; p] item l HI HB HL Hl) as [(ES & W & _) HA].
  set (c := gu_sub (fresh (lsh ++ [m; p]) item) l (length lsh)) in *.
  assert (EI : a_item c = item).
  { unfold c, gu_sub. destruct (skipn _ _); reflexivity. }
  destruct (two_strides _ _ _ _ W ES) as (s0 & s1 & EST).
  unfold poke, nth_res. rewrite EST. cbn [nth_error bind].
  pose proof (elem_addr_spec buf c m p i j s0 s1 W ES Hi Hj EST) as EA. rewrite EI in EA. rewrite EA.
  assert (Hc : inb [i; j] [m; p]) by (repeat constructor; assumption).
  rewrite (HA [i; j] Hc). apply store_rank; [exact HI|]. rewrite HL. apply rank_lt.
  apply inb_app; [apply inb_length, Hl|]. split; [exact Hl|exact Hc].
Qed.
End P.
