(* Proofs about copyto. *)
From Coq Require Import SpecFloat.
From Verif Require Import Base Lists Int_Model Arr_Spec Arr_Model Arr_Wf Arr_Proofs Copy_Model Copy_Proofs Idx_Model Idx_Wf Idx_Assign Gu_Model Gu_Proofs
  SF_Proofs SF_Arith Span_Proofs New_Spec New_Model Grid_Model Lay_Spec Lay_Model Lay_Proofs.
Local Open Scope nat_scope.

Lemma foldM_ext_in {A S} (f g : S -> A -> res S) l : (forall s x, In x l -> f s x = g s x) -> forall s, foldM f l s = foldM g l s.
Proof.
  induction l as [|x l IH]; intros H s; [reflexivity|]. cbn [foldM]. rewrite H by (left; reflexivity).
  destruct (g s x); cbn [bind]; try reflexivity. apply IH. intros; apply H; right; assumption.
Qed.
Lemma foldM_map {A B S} (h : A -> B) (f : S -> B -> res S) l : forall s, foldM f (map h l) s = foldM (fun s x => f s (h x)) l s.
Proof. induction l as [|x l IH]; intros s; [reflexivity|]. cbn [map foldM]. destruct (f s (h x)); cbn [bind]; auto. Qed.

(* stores at distinct addresses of values read from memory that the stores leave alone *)
Lemma guarded_stores {X V} (step : list V -> X -> res (list V)) (v : X -> option V) (A : X -> Z) item buf : (0 < item)%Z ->
  forall L b, (forall x, In x L -> exists w, load b item (A x) = Some w) -> NoDup L -> (forall x y, In x L -> In y L -> A x = A y -> x = y) ->
  forall L0, (forall x, In x L -> In x L0) -> (forall ad, (forall y, In y L0 -> ad <> A y) -> load b item ad = load buf item ad) -> length b = length buf ->
  (forall b x, In x L0 -> length b = length buf -> (forall ad, (forall y, In y L0 -> ad <> A y) -> load b item ad = load buf item ad) ->
     step b x = match v x with Some c => store b item (A x) c | None => Ok b end) ->
  exists b', foldM step L b = Ok b' /\ length b' = length buf /\
    (forall x, In x L -> load b' item (A x) = match v x with Some c => Some c | None => load b item (A x) end) /\
    (forall ad, (forall x, In x L -> ad <> A x) -> load b' item ad = load b item ad).
Proof.
  intros HI. induction L as [|x L IH]; intros b HL HD HA L0 HI0 HO HN HS.
  - exists b. split; [reflexivity|]. split; [exact HN|]. split; [intros x []|reflexivity].
  - cbn [foldM]. rewrite (HS b x (HI0 x (or_introl eq_refl)) HN HO). inversion HD; subst.
    assert (HA' : forall y z, In y L -> In z L -> A y = A z -> y = z) by (intros; apply HA; try (right; assumption); assumption).
    assert (HX : forall y, In y L -> A y <> A x).
    { intros y Hy E. assert (y = x) by (apply HA; [right; exact Hy|left; reflexivity|exact E]). subst. contradiction. }
    destruct (v x) as [c|] eqn:Ev.
    + destruct (HL x (or_introl eq_refl)) as [w Hw]. destruct (store_ok b item (A x) w c HI Hw) as (b1 & E1 & L1 & G1). rewrite E1. cbn [bind].
      destruct (IH b1) with (L0 := L0) as (b2 & E2 & L2 & S2 & O2); try assumption.
      { intros y Hy. rewrite G1. destruct (A y =? A x)%Z; [eexists; reflexivity|]. apply HL. right; exact Hy. }
      { intros y Hy. apply HI0. right; exact Hy. }
      { intros ad Hn. rewrite G1. destruct (Z.eqb_spec ad (A x)) as [->|_]; [|apply HO; exact Hn].
        exfalso. apply (Hn x); [apply HI0; left; reflexivity|reflexivity]. }
      { congruence. }
      exists b2. split; [exact E2|]. split; [exact L2|]. split.
      * intros y [<-|Hy].
        -- rewrite O2, G1, Z.eqb_refl, Ev; [reflexivity|]. intros y Hy E. apply (HX y Hy). symmetry. exact E.
        -- rewrite S2 by exact Hy. rewrite G1. destruct (Z.eqb_spec (A y) (A x)) as [E|_]; [exfalso; apply (HX y Hy E)|reflexivity].
      * intros ad Hn. rewrite O2 by (intros y Hy; apply Hn; right; exact Hy). rewrite G1.
        destruct (Z.eqb_spec ad (A x)) as [->|_]; [|reflexivity]. exfalso. apply (Hn x); [left; reflexivity|reflexivity].
    + cbn [bind]. destruct (IH b) with (L0 := L0) as (b2 & E2 & L2 & S2 & O2); try assumption.
      { intros y Hy. apply HL. right; exact Hy. } { intros y Hy. apply HI0. right; exact Hy. }
      exists b2. split; [exact E2|]. split; [exact L2|]. split.
      * intros y [<-|Hy]; [|apply S2; exact Hy]. rewrite Ev. apply O2. intros y Hy E. apply (HX y Hy). symmetry. exact E.
      * intros ad Hn. apply O2. intros y Hy. apply Hn. right; exact Hy.
Qed.

Lemma unstretch_same sh : forall idx, inb idx sh -> unstretch sh idx = idx.
Proof.
  induction sh as [|s sh IH]; intros idx H; inversion H; subst; [reflexivity|]. cbn [unstretch]. rewrite IH by assumption. f_equal.
  destruct (Nat.eqb_spec s 1); lia.
Qed.
Lemma unbroadcast_same sh idx : inb idx sh -> unbroadcast sh idx = idx.
Proof.
  intros H. unfold unbroadcast. rewrite (inb_length _ _ H), Nat.sub_diag. cbn [skipn]. apply unstretch_same. exact H.
Qed.
Lemma shape_to_ok {V} (buf : list V) a sh : wf buf a -> broadcastable (a_shape a) sh ->
  exists b, shape_to a sh = Ok b /\ is_view buf a b sh (unbroadcast (a_shape a)) /\ a_item b = a_item a /\
    forall idx, inb idx sh -> addr b idx = addr a (unbroadcast (a_shape a) idx).
Proof.
  intros W HB. unfold shape_to. destruct (list_eqb (a_shape a) sh) eqn:E.
  - apply list_eqb_eq in E. exists a. split; [reflexivity|]. split; [|split; [reflexivity|]].
    + split; [exact E|]. split; [exact W|]. intros idx Hi. rewrite <- E in Hi. rewrite unbroadcast_same by exact Hi. split; [exact Hi|reflexivity].
    + intros idx Hi. rewrite <- E in Hi. rewrite unbroadcast_same by exact Hi. reflexivity.
  - destruct (broadcast_to_is_view buf a sh W) as [H _]. destruct (H HB) as (b & E1 & V1). exists b. split; [exact E1|]. split; [exact V1|].
    unfold broadcast_to in E1. destruct (Nat.ltb_spec (length sh) (ndim a)) as [|HL]; [discriminate|].
    destruct (bcast_strides _ _ _) as [st|] eqn:EB; [|discriminate]. injection E1 as <-. split; [reflexivity|].
    destruct W as (_ & _ & HO & HLs & _). intros idx Hi. unfold addr, byte_offset_for. cbn [view_with a_off a_strides].
    unfold wrap_usize. rewrite Z.add_0_r, Z.mod_small by exact HO. f_equal. unfold ndim in *. pose proof (inb_length _ _ Hi) as HLi.
    rewrite dot_skip_zeros by lia. unfold unbroadcast. rewrite HLi.
    destruct HB as [_ HB]. destruct (bcast_strides_spec (a_shape a) (a_strides a) (skipn (length sh - length (a_shape a)) sh)) as [Hp _];
      [exact HLs|rewrite skipn_length; lia|]. destruct (Hp HB) as (r & Er & _ & Hr). rewrite EB in Er. injection Er as <-.
    apply Hr. apply inb_skipn. exact Hi.
Qed.

(* a source whose memory the destination does not touch: its own buffer, or other cells of
   the destination's *)
Definition apart (dst : arr) (dbuf : list cell) (x : operand) : Prop :=
  match snd (fst x) with
  | Some b => wf b (op_arr x)
  | None => wf dbuf (op_arr x) /\ a_item (op_arr x) = a_item dst /\
            forall i j, inb i (a_shape dst) -> inb j (a_shape (op_arr x)) -> addr dst i <> addr (op_arr x) j
  end.
Lemma apart_wf dst dbuf x : apart dst dbuf x -> wf (op_buf x dbuf) (op_arr x).
Proof. unfold apart, op_buf. destruct (snd (fst x)); [auto|intros [H _]; exact H]. Qed.
(* reads through a broadcast source do not see the stores *)
Lemma apart_read dst dbuf x bs b idx c : apart dst dbuf x -> is_view (op_buf x dbuf) (op_arr x) bs (a_shape dst) (unbroadcast (a_shape (op_arr x))) ->
  a_item bs = a_item (op_arr x) -> inb idx (a_shape dst) -> get (op_buf x dbuf) (op_arr x) (unbroadcast (a_shape (op_arr x)) idx) = Some c ->
  (forall ad, (forall y, In y (all_idx (a_shape dst)) -> ad <> addr dst y) -> load b (a_item dst) ad = load dbuf (a_item dst) ad) ->
  (forall i, inb i (a_shape dst) -> exists j, inb j (a_shape (op_arr x)) /\ addr bs i = addr (op_arr x) j) ->
  read (op_buf x b) bs (byte_offset_for bs idx) = Ok c.
Proof.
  intros HP (V1 & V2 & V3) HI Hi Hc HO HA. destruct (V3 idx Hi) as [Hj Hg]. unfold read. rewrite <- Hg in Hc. unfold get in Hc.
  unfold op_buf in *. unfold apart in HP. destruct (snd (fst x)); [rewrite Hc; reflexivity|]. destruct HP as (_ & H2 & H3).
  change (a_off bs + byte_offset_for bs idx)%Z with (addr bs idx) in *. rewrite HI, H2 in *. rewrite HO; [rewrite Hc; reflexivity|].
  intros y Hy E. apply in_all_idx in Hy. destruct (HA idx Hi) as (j & Hj' & EA). apply (H3 y j Hy Hj'). congruence.
Qed.

(* what copyto writes at idx: nothing where the mask is false *)
Definition chosen (mask : option operand) (dbuf : list cell) (idx : list nat) : Prop :=
  match mask with
  | None => True
  | Some m => exists c, get (op_buf m dbuf) (op_arr m) (unbroadcast (a_shape (op_arr m)) idx) = Some c /\ truth (op_dt m) c
  end.
Definition spared (mask : option operand) (dbuf : list cell) (idx : list nat) : Prop :=
  match mask with
  | None => False
  | Some m => exists c, get (op_buf m dbuf) (op_arr m) (unbroadcast (a_shape (op_arr m)) idx) = Some c /\ ~ truth (op_dt m) c
  end.
Definition mask_ok (mask : option operand) (dst : arr) (dbuf : list cell) : Prop :=
  match mask with
  | None => True
  | Some m => apart dst dbuf m /\ broadcastable (a_shape (op_arr m)) (a_shape dst) /\
      forall idx c, inb idx (a_shape (op_arr m)) -> get (op_buf m dbuf) (op_arr m) idx = Some c -> cell_ok (op_dt m) c /\
        (forall z, c = CInt z -> op_dt m <> LBool -> Z.abs z < 2 ^ 53)%Z
  end.
Lemma mask_true_ok d c : cell_ok d c -> (forall z, c = CInt z -> d <> LBool -> Z.abs z < 2 ^ 53)%Z -> (mask_true d c = true <-> truth d c).
Proof.
  intros HC HZ. destruct d as [t| |], c as [z|f]; cbn in HC; try contradiction; unfold mask_true; cbn [read_f64 truth].
  - specialize (HZ z eq_refl ltac:(discriminate)). destruct (f64_int_fin z HZ) as [->|(s & m & e & E)].
    + vm_compute. split; [discriminate|intros N; exfalso; apply N; reflexivity].
    + pose proof (f64_int_is z HZ) as HI. rewrite E in *. destruct (sf_is_cases _ _ HI) as [(s' & A & _)|(s' & m' & e' & _ & N)]; [discriminate|].
      split; [intros _; exact N|reflexivity].
  - destruct HC as [-> | ->]; vm_compute; split; try discriminate; try reflexivity. intros N. exfalso. apply N. reflexivity.
  - destruct f; split; try discriminate; try reflexivity; try contradiction; intros; exact I.
Qed.

(* the value of one element after copyto: exact on the memcpy path, through binary64 otherwise *)
Definition fast (dd : ldt) (dst : arr) (src : operand) (mask : option operand) (bs : arr) : bool :=
  match mask with None => ldt_eqb dd (op_dt src) && a_c dst && a_c bs | Some _ => false end.

Lemma offsets_of {V} (buf : list V) a : wf buf a -> iter_offsets a = map (byte_offset_for a) (all_idx (a_shape a)).
Proof. intros (_ & _ & _ & HL & _). unfold iter_offsets. rewrite strided_offsets_spec by exact HL. apply map_ext. intros; unfold byte_offset_for; lia. Qed.
Lemma combine_map {A B C} (f : A -> B) (g : A -> C) l : combine (map f l) (map g l) = map (fun x => (f x, g x)) l.
Proof. induction l as [|x l IH]; cbn; [reflexivity|]. rewrite IH. reflexivity. Qed.

Lemma copyto_ok dd dbuf dst src mask : wf dbuf dst -> injective dst ->
  apart dst dbuf src -> (op_dt src = dd -> a_item (op_arr src) = a_item dst) -> broadcastable (a_shape (op_arr src)) (a_shape dst) -> mask_ok mask dst dbuf ->
  exists buf' bs, copyto dd dbuf dst src mask = Ok buf' /\ shape_to (op_arr src) (a_shape dst) = Ok bs /\ length buf' = length dbuf /\
    (forall idx, inb idx (a_shape dst) ->
       (chosen mask dbuf idx -> exists c, get (op_buf src dbuf) (op_arr src) (unbroadcast (a_shape (op_arr src)) idx) = Some c /\
          get buf' dst idx = Some (if fast dd dst src mask bs then c else through_f64 (op_dt src) dd c)) /\
       (spared mask dbuf idx -> get buf' dst idx = get dbuf dst idx)) /\
    (forall ad, (forall idx, inb idx (a_shape dst) -> ad <> addr dst idx) -> load buf' (a_item dst) ad = load dbuf (a_item dst) ad).
Proof.
  intros W HJ HP HIt HB HM. pose proof W as (HI & _ & HO & HLs & HG & HCC & _).
  pose proof (apart_wf _ _ _ HP) as WS. destruct (shape_to_ok _ _ _ WS HB) as (bs & Ebs & Vbs & Ibs & Abs).
  unfold copyto. rewrite Ebs. cbn [bind].
  destruct (Nat.eqb_spec (size dst) 0) as [H0|H0].
  { exists dbuf, bs. split; [reflexivity|]. split; [reflexivity|]. split; [reflexivity|]. split; [|reflexivity].
    intros idx Hi. pose proof (rank_lt (a_shape dst) idx Hi). unfold size in H0. lia. }
  pose proof Vbs as (B1 & B2 & B3).
  assert (ABS : forall i, inb i (a_shape dst) -> exists j, inb j (a_shape (op_arr src)) /\ addr bs i = addr (op_arr src) j).
  { intros i Hi. exists (unbroadcast (a_shape (op_arr src)) i). split; [apply B3; exact Hi|apply Abs; exact Hi]. }
  assert (SRC : forall idx, inb idx (a_shape dst) -> exists c, get (op_buf src dbuf) (op_arr src) (unbroadcast (a_shape (op_arr src)) idx) = Some c).
  { intros idx Hi. destruct (B3 idx Hi) as [Hu _]. destruct WS as (_ & _ & _ & _ & G & _). apply G. exact Hu. }
  set (val := fun idx => match get (op_buf src dbuf) (op_arr src) (unbroadcast (a_shape (op_arr src)) idx) with Some c => c | None => CInt 0 end).
  assert (VAL : forall idx, inb idx (a_shape dst) -> get (op_buf src dbuf) (op_arr src) (unbroadcast (a_shape (op_arr src)) idx) = Some (val idx)).
  { intros idx Hi. destruct (SRC idx Hi) as [c Hc]. unfold val. rewrite Hc. reflexivity. }
  set (sel := fun idx => match mask with None => true | Some m =>
     match get (op_buf m dbuf) (op_arr m) (unbroadcast (a_shape (op_arr m)) idx) with Some c => mask_true (op_dt m) c | None => false end end).
  set (fst_ := fast dd dst src mask bs).
  set (v := fun idx => if sel idx then Some (if fst_ then val idx else through_f64 (op_dt src) dd (val idx)) else None).
  assert (KEY : exists buf', (match mask with
    | Some m => bind (shape_to (op_arr m) (a_shape dst)) (fun bm =>
        foldM (fun b (p : Z * Z * Z) => let '(od, os, om) := p in
                 bind (read (op_buf m b) bm om) (fun mc => if mask_true (op_dt m) mc then copy_one dd dst src bs b od os else Ok b))
              (combine (combine (iter_offsets dst) (iter_offsets bs)) (iter_offsets bm)) dbuf)
    | None => if ldt_eqb dd (op_dt src) && a_c dst && a_c bs
        then memcpy (match snd (fst src) with None => true | Some _ => false end) dbuf (op_buf src dbuf) dst bs (size dst)
        else foldM (fun b (p : Z * Z) => copy_one dd dst src bs b (fst p) (snd p)) (combine (iter_offsets dst) (iter_offsets bs)) dbuf
    end) = Ok buf' /\ length buf' = length dbuf /\
    (forall idx, In idx (all_idx (a_shape dst)) -> load buf' (a_item dst) (addr dst idx) = match v idx with Some c => Some c | None => load dbuf (a_item dst) (addr dst idx) end) /\
    (forall ad, (forall idx, In idx (all_idx (a_shape dst)) -> ad <> addr dst idx) -> load buf' (a_item dst) ad = load dbuf (a_item dst) ad)).
  { assert (GS : forall step, (forall b x, In x (all_idx (a_shape dst)) -> length b = length dbuf ->
        (forall ad, (forall y, In y (all_idx (a_shape dst)) -> ad <> addr dst y) -> load b (a_item dst) ad = load dbuf (a_item dst) ad) ->
        step b x = match v x with Some c => store b (a_item dst) (addr dst x) c | None => Ok b end) ->
      exists buf', foldM step (all_idx (a_shape dst)) dbuf = Ok buf' /\ length buf' = length dbuf /\
        (forall idx, In idx (all_idx (a_shape dst)) -> load buf' (a_item dst) (addr dst idx) = match v idx with Some c => Some c | None => load dbuf (a_item dst) (addr dst idx) end) /\
        (forall ad, (forall idx, In idx (all_idx (a_shape dst)) -> ad <> addr dst idx) -> load buf' (a_item dst) ad = load dbuf (a_item dst) ad)).
    { intros step HS. apply (guarded_stores step v (addr dst) (a_item dst) dbuf HI) with (L0 := all_idx (a_shape dst)); auto.
      - intros x Hx. apply HG. apply in_all_idx. exact Hx.
      - apply all_idx_nodup.
      - intros x y Hx Hy E. apply HJ; [apply in_all_idx; exact Hx|apply in_all_idx; exact Hy|exact E]. }
    assert (ONE : forall b x, In x (all_idx (a_shape dst)) ->
        (forall ad, (forall y, In y (all_idx (a_shape dst)) -> ad <> addr dst y) -> load b (a_item dst) ad = load dbuf (a_item dst) ad) ->
        copy_one dd dst src bs b (byte_offset_for dst x) (byte_offset_for bs x) = store b (a_item dst) (addr dst x) (through_f64 (op_dt src) dd (val x))).
    { intros b x Hx Hb. apply in_all_idx in Hx. unfold copy_one. rewrite (apart_read dst dbuf src bs b x (val x) HP Vbs Ibs Hx (VAL x Hx) Hb ABS). reflexivity. }
    destruct mask as [m|].
    - destruct HM as (MP & MB & MC). pose proof (apart_wf _ _ _ MP) as WM. destruct (shape_to_ok _ _ _ WM MB) as (bm & Ebm & Vbm & Ibm & Abm).
      rewrite Ebm. cbn [bind]. pose proof Vbm as (M1 & M2 & M3). rewrite (offsets_of _ _ W), (offsets_of _ _ B2), (offsets_of _ _ M2), B1, M1, !combine_map, foldM_map.
      apply GS. intros b x Hx _ Hb. cbn beta iota. pose proof Hx as Hx'. apply in_all_idx in Hx'. destruct (M3 x Hx') as [Hu _].
      destruct WM as (_ & _ & _ & _ & MG & _). destruct (MG _ Hu) as (mc & Hmc).
      rewrite (apart_read dst dbuf m bm b x mc MP Vbm Ibm Hx' Hmc Hb) by (intros i Hi; exists (unbroadcast (a_shape (op_arr m)) i); split; [apply M3; exact Hi|apply Abm; exact Hi]).
      cbn [bind]. unfold v, sel. rewrite Hmc. destruct (mask_true (op_dt m) mc); [|reflexivity]. unfold fst_, fast. apply ONE; assumption.
    - unfold fst_, fast in v. destruct (ldt_eqb dd (op_dt src) && a_c dst && a_c bs) eqn:EF.
      + apply andb_true_iff in EF as [EF C2]. apply andb_true_iff in EF as [C0 C1]. apply ldt_eqb_eq in C0.
        assert (EI : a_item bs = a_item dst) by (rewrite Ibs; apply HIt; symmetry; exact C0).
        pose proof (c_flag_row _ _ W C1) as R1. pose proof (c_flag_row _ _ B2 C2) as R2. unfold row_major in R1, R2. rewrite B1, EI in R2.
        unfold memcpy.
        assert (NF : (match snd (fst src) with None => true | Some _ => false end && (a_off dst <? a_off bs + Z.of_nat (size dst) * a_item dst)%Z
                      && (a_off bs <? a_off dst + Z.of_nat (size dst) * a_item dst)%Z) = false).
        { destruct (snd (fst src)) as [|] eqn:ES; [reflexivity|]. cbn [andb]. destruct (Z.ltb_spec (a_off dst) (a_off bs + Z.of_nat (size dst) * a_item dst)) as [L1|]; [|reflexivity].
          destruct (Z.ltb_spec (a_off bs) (a_off dst + Z.of_nat (size dst) * a_item dst)) as [L2|]; [|reflexivity]. exfalso.
          unfold apart in HP. rewrite ES in HP. destruct HP as (_ & _ & HD).
          assert (Z0 : forall (bf : list cell) x, wf bf x -> a_shape x = a_shape dst -> a_item x = a_item dst -> a_c x = true -> (a_off x mod a_item dst = 0)%Z).
          { intros bf x Wx Sx Ix Cx. pose proof (unrank_inb (a_shape dst) 0 ltac:(unfold size in H0; lia)) as H00. pose proof Wx as (_ & _ & _ & _ & Gx & _). rewrite Sx in Gx.
            destruct (Gx _ H00) as (w & Hw). unfold get in Hw. rewrite Ix in Hw. change (a_off x + byte_offset_for x (unrank (a_shape dst) 0))%Z with (addr x (unrank (a_shape dst) 0)) in Hw.
            pose proof (c_flag_row _ _ Wx Cx) as Rx. unfold row_major in Rx. rewrite Sx, Ix in Rx. rewrite (Rx _ H00) in Hw. change (rm_rank (a_shape dst)) with (rank (a_shape dst)) in Hw. rewrite rank_unrank in Hw by (unfold size in H0; lia).
            rewrite Z.mul_0_r, Z.add_0_r in Hw. destruct (load_some _ _ _ _ HI Hw) as (_ & Hm & _). exact Hm. }
          pose proof (Z0 _ _ W eq_refl eq_refl C1) as D1. pose proof (Z0 _ _ B2 B1 EI C2) as D2.
          apply Z.mod_divide in D1; [|lia]. apply Z.mod_divide in D2; [|lia]. destruct D1 as [q1 D1], D2 as [q2 D2].
          assert (EX : exists i j, i < size dst /\ j < size dst /\ (q1 + Z.of_nat i = q2 + Z.of_nat j)%Z).
          { destruct (Z.le_ge_cases q1 q2).
            - exists (Z.to_nat (q2 - q1)), 0. split; [|split; [lia|lia]]. assert (q2 - q1 < Z.of_nat (size dst))%Z by nia. lia.
            - exists 0, (Z.to_nat (q1 - q2)). split; [lia|]. split; [|lia]. assert (q1 - q2 < Z.of_nat (size dst))%Z by nia. lia. }
          destruct EX as (i & j & Hi & Hj & Eij). unfold size in Hi, Hj. pose proof (unrank_inb _ _ Hi) as Ui. pose proof (unrank_inb _ _ Hj) as Uj.
          destruct (ABS _ Uj) as (j' & Hj' & Ej'). apply (HD _ j' Ui Hj'). rewrite <- Ej', (R1 _ Ui), (R2 _ Uj).
          change (rm_rank (a_shape dst)) with (rank (a_shape dst)). rewrite !rank_unrank by assumption. nia. }
        rewrite NF. unfold size. assert (ESQ : seq 0 (prod (a_shape dst)) = map (rank (a_shape dst)) (all_idx (a_shape dst))).
        { rewrite all_idx_unrank, map_map. rewrite <- (map_id (seq 0 _)) at 1. apply map_ext_in. intros k Hk. apply in_seq in Hk. rewrite rank_unrank by lia. reflexivity. }
        rewrite ESQ, foldM_map. apply GS. intros b x Hx _ Hb. apply in_all_idx in Hx. unfold v, sel.
        pose proof (VAL x Hx) as HV. destruct (B3 x Hx) as [_ HB3]. rewrite <- HB3 in HV. unfold get in HV.
        change (a_off bs + byte_offset_for bs x)%Z with (addr bs x) in HV. rewrite (R2 _ Hx), EI in HV. rewrite EI.
        replace (a_off bs + Z.of_nat (rank (a_shape dst) x) * a_item dst)%Z with (a_off bs + a_item dst * Z.of_nat (rm_rank (a_shape dst) x))%Z by (change (rm_rank (a_shape dst) x) with (rank (a_shape dst) x); lia).
        rewrite HV. cbn [of_load bind]. rewrite (R1 _ Hx). f_equal. change (rm_rank (a_shape dst) x) with (rank (a_shape dst) x). lia.
      + rewrite (offsets_of _ _ W), (offsets_of _ _ B2), B1, combine_map, foldM_map. apply GS. intros b x Hx _ Hb. cbn [fst snd]. unfold v, sel. apply ONE; assumption. }
  destruct KEY as (buf' & E & L & S' & O). exists buf', bs. split; [exact E|]. split; [reflexivity|]. split; [exact L|]. split.
  - intros idx Hi. pose proof Hi as Hin. apply in_all_idx in Hin. specialize (S' idx Hin). unfold get. change (a_off dst + byte_offset_for dst idx)%Z with (addr dst idx).
    rewrite S'. unfold v. split.
    + intros HC. exists (val idx). split; [apply VAL; exact Hi|]. assert (ESel : sel idx = true).
      { unfold sel. destruct mask as [m|]; [|reflexivity]. destruct HC as (c & Hc & Ht). rewrite Hc. destruct HM as (MP & MB & MC).
        pose proof (apart_wf _ _ _ MP) as WM. destruct (shape_to_ok _ _ _ WM MB) as (bm & _ & (_ & _ & M3) & _). destruct (MC _ c (proj1 (M3 idx Hi)) Hc) as [K1 K2].
        apply mask_true_ok; assumption. }
      rewrite ESel. reflexivity.
    + intros HC. assert (ESel : sel idx = false).
      { unfold sel. destruct mask as [m|]; [|contradiction]. destruct HC as (c & Hc & Ht). rewrite Hc. destruct HM as (MP & MB & MC).
        pose proof (apart_wf _ _ _ MP) as WM. destruct (shape_to_ok _ _ _ WM MB) as (bm & _ & (_ & _ & M3) & _). destruct (MC _ c (proj1 (M3 idx Hi)) Hc) as [K1 K2].
        destruct (mask_true (op_dt m) c) eqn:EM; [|reflexivity]. exfalso. apply Ht. apply mask_true_ok; assumption. }
      rewrite ESel. reflexivity.
  - intros ad Hn. apply O. intros idx Hin. apply Hn. apply in_all_idx. exact Hin.
Qed.
