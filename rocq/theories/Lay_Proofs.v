(* Proofs about layout, conversion and copyto. *)
From Coq Require Import SpecFloat.
From Verif Require Import Base Lists Int_Model Arr_Spec Arr_Model Arr_Wf Arr_Proofs Copy_Model Copy_Proofs Idx_Model Idx_Wf Idx_Assign Gu_Model
  SF_Proofs SF_Arith Rng_Model Date_Model New_Spec New_Model New_Proofs Span_Proofs Grid_Spec Grid_Model Grid_Proofs Grid_Diag Io_Spec Lay_Spec Lay_Model.
Local Open Scope nat_scope.

Lemma ldt_eqb_eq d d' : ldt_eqb d d' = true <-> d = d'.
Proof.
  destruct d as [[b s]| |], d' as [[b' s']| |]; cbn; split; intros H; try discriminate; try reflexivity.
  - apply andb_true_iff in H as [H1 H2]. apply Z.eqb_eq in H1. apply Bool.eqb_prop in H2. subst. reflexivity.
  - injection H as -> ->. rewrite Z.eqb_refl, Bool.eqb_reflx. reflexivity.
Qed.
Lemma ldt_eqb_refl d : ldt_eqb d d = true. Proof. apply ldt_eqb_eq. reflexivity. Qed.
Lemma ldt_eqb_neq d d' : ldt_eqb d d' = false -> d <> d'.
Proof. intros H E. apply ldt_eqb_eq in E. congruence. Qed.

Lemma sf_is_cases f z : sf_is f z 0 -> (exists s, f = S754_zero s /\ z = 0%Z) \/ (exists s m e, f = S754_finite s m e /\ z <> 0%Z).
Proof.
  destruct f as [s|s| |s m e]; cbn [sf_is]; try contradiction.
  - intros ->. left. exists s. split; reflexivity.
  - intros H. right. exists s, m, e. split; [reflexivity|]. intros ->.
    pose proof (Z.pow_pos_nonneg 2 (e - Z.min 0 e) eq_refl ltac:(lia)). destruct s; nia.
Qed.
Lemma as_int_is t f z : sf_is f z 0 -> representable t z -> as_int t f = z.
Proof.
  intros H R. pose proof (sf_trunc_is f z H) as E. destruct f as [s|s| |s m e]; cbn [as_int]; try (cbn in H; contradiction);
    rewrite E; unfold F64_Model.sat; unfold representable in R; lia.
Qed.
Lemma read_is d c z : is_int d c z -> (Z.abs z < 2 ^ 53)%Z -> sf_is (read_f64 d c) z 0.
Proof.
  intros Hz Hs. destruct d as [t| |], c as [x|f]; cbn [is_int] in Hz; try contradiction; cbn [read_f64].
  - subst. apply f64_int_is. exact Hs.
  - destruct Hz as [-> [-> | ->]]; vm_compute; reflexivity.
  - exact Hz.
Qed.
Lemma write_is d f z : sf_is f z 0 -> holds d z -> is_int d (write_f64 d f) z.
Proof.
  intros Hf Hh. destruct d as [t| |]; cbn [write_f64 is_int holds] in *; [apply as_int_is; assumption| |exact Hf].
  split; [|exact Hh]. destruct (sf_is_cases f z Hf) as [(s & -> & ->)|(s & m & e & -> & N)]; [reflexivity|]. lia.
Qed.
Lemma through_converts d d' c : d <> d' -> converts d c d' (through_f64 d d' c).
Proof.
  intros N. split; [intros E; contradiction|]. intros z Hz Hs Hh. apply write_is; [|exact Hh]. apply read_is; assumption.
Qed.
Lemma same_converts d c : converts d c d c.
Proof. split; [reflexivity|]. intros z Hz _ _. exact Hz. Qed.

(* ---- astype and the four conversions ------------------------------------------------- *)
Lemma astype_ok d d' buf a : wf buf a -> std d' -> (Z.of_nat (size a) * ld_item d' < 2 ^ 63)%Z ->
  exists b, astype d d' buf a = Ok b /\ wf b (fresh (a_shape a) (ld_item d')) /\
    forall idx, inb idx (a_shape a) -> exists c c', get buf a idx = Some c /\ get b (fresh (a_shape a) (ld_item d')) idx = Some c' /\ converts d c d' c'.
Proof.
  intros W HS HB. pose proof (ld_item_pos d' HS) as HI.
  assert (G : exists f vals, astype d d' buf a = Ok (map f vals) /\ elems buf a = map Some vals /\ length vals = size a /\ forall c, converts d c d' (f c)).
  { unfold astype. destruct (ldt_eqb d d') eqn:E.
    - apply ldt_eqb_eq in E. subst d'. destruct (copy_buf_spec buf a (typed_ldt d) W) as (vals & E1 & E2 & E3).
      exists (fun c => c), vals. rewrite map_id. split; [exact E1|]. split; [exact E2|]. split; [exact E3|]. apply same_converts.
    - destruct (wf_elems buf a W) as (vals & E1 & E2). exists (through_f64 d d'), vals.
      split; [|split; [exact E1|split; [exact E2|intros c; apply through_converts; apply ldt_eqb_neq; exact E]]].
      destruct (Nat.eqb_spec (size a) 0) as [H0|H0]; [rewrite H0 in E2; destruct vals; [reflexivity|discriminate]|].
      destruct (astype_conv_spec (through_f64 d d') buf a W) as (vals' & E3 & E4). rewrite E3. rewrite E1 in E4. apply map_Some_inj in E4. subst. reflexivity. }
  destruct G as (f & vals & E1 & E2 & E3 & HC). exists (map f vals). split; [exact E1|]. split.
  - apply fresh_wf; [lia|rewrite map_length, E3; exact HB|rewrite map_length; exact E3].
  - intros idx Hi. pose proof W as (_ & _ & _ & _ & HG & _). destruct (HG idx Hi) as (c & Hc). exists c, (f c). split; [exact Hc|].
    split; [|apply HC]. rewrite (elems_get buf vals a f idx (ld_item d') ltac:(lia) E2 Hi), Hc. reflexivity.
Qed.

Lemma f_run_rev sh : forall st item, length st = length sh -> f_contig_run (rev sh) (rev st) (Going item) = c_contig_run sh st item.
Proof.
  assert (A : forall sh1 st1 s x c, length st1 = length sh1 -> f_contig_run (sh1 ++ [s]) (st1 ++ [x]) c = contig_step s x (f_contig_run sh1 st1 c)).
  { induction sh1 as [|s1 sh1 IH]; intros [|x1 st1] s x c H; try discriminate; [reflexivity|]. cbn [app f_contig_run]. apply IH. cbn in H. lia. }
  induction sh as [|s sh IH]; intros [|x st] item H; try discriminate; [reflexivity|]. cbn [rev c_contig_run].
  rewrite A by (rewrite !rev_length; cbn in H; lia). rewrite IH by (cbn in H; lia). reflexivity.
Qed.
Lemma frank_cm sh : forall idx, frank sh idx = cm_rank sh idx.
Proof. reflexivity. Qed.

Lemma c_flag_row {V} (buf : list V) a : wf buf a -> a_c a = true -> row_major a.
Proof.
  intros (_ & _ & _ & HL & _ & HC & _) E idx Hi. unfold addr, byte_offset_for. rewrite (c_contig_dot (a_shape a) (a_strides a) (a_item a) idx HL Hi (HC E)).
  reflexivity.
Qed.
Lemma f_flag_col {V} (buf : list V) a : wf buf a -> a_f a = true -> col_major a.
Proof.
  intros (_ & _ & _ & HL & _ & _ & HF) E idx Hi. unfold addr, byte_offset_for. rewrite <- frank_cm.
  rewrite (f_contig_dot (a_shape a) (a_strides a) (a_item a) idx HL Hi); [reflexivity|]. apply HF. exact E.
Qed.

Lemma fortran_ok d d' buf a : wf buf a -> std d' -> (Z.of_nat (size a) * ld_item d' < 2 ^ 63)%Z ->
  exists b r, bind (astype d d' buf (transpose a)) (fun b => Ok (New d' b (transpose (fresh (a_shape (transpose a)) (ld_item d'))))) = Ok (New d' b r) /\
    a_shape r = a_shape a /\ wf b r /\ a_f r = true /\
    forall idx, inb idx (a_shape a) -> exists c c', get buf a idx = Some c /\ get b r idx = Some c' /\ converts d c d' c'.
Proof.
  intros W HS HB. destruct (transpose_is_view buf a W) as (T1 & T2 & T3).
  assert (ES : size (transpose a) = size a).
  { unfold size. rewrite T1. clear. induction (a_shape a) as [|s l IH]; [reflexivity|]. cbn [rev prod]. rewrite prod_app, IH. cbn [prod]. lia. }
  destruct (astype_ok d d' buf (transpose a) T2 HS ltac:(rewrite ES; exact HB)) as (b & E & W' & G).
  exists b, (transpose (fresh (a_shape (transpose a)) (ld_item d'))). rewrite E. split; [reflexivity|].
  destruct (transpose_is_view b (fresh (a_shape (transpose a)) (ld_item d')) W') as (R1 & R2 & R3).
  assert (RS : a_shape (transpose (fresh (a_shape (transpose a)) (ld_item d'))) = a_shape a).
  { rewrite R1. cbn [fresh a_shape]. rewrite T1. apply rev_involutive. }
  split; [exact RS|]. split; [exact R2|]. split.
  - unfold transpose at 1. cbn [view_with a_f a_shape a_strides a_item fresh]. unfold is_f_contiguous. rewrite f_run_rev by (rewrite c_strides_length; reflexivity).
    apply c_contig_c_strides.
  - intros idx Hi. assert (Hr : inb (rev idx) (a_shape (transpose a))) by (rewrite T1; apply inb_rev; rewrite !rev_involutive; exact Hi).
    destruct (G (rev idx) Hr) as (c & c' & G1 & G2 & G3). exists c, c'. split; [|split; [|exact G3]].
    + rewrite T1 in Hr. destruct (T3 (rev idx) Hr) as [_ G4]. rewrite G4, rev_involutive in G1. exact G1.
    + destruct (R3 idx) as [_ G4]; [rewrite R1 in RS; rewrite RS; exact Hi|]. rewrite G4. exact G2.
Qed.
