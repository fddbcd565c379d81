(* Proofs about means along an axis. *)
From Coq Require Import SpecFloat.
From Verif Require Import Base Lists Int_Model Int_Proofs F64_Model Arr_Spec Arr_Model Arr_Wf Arr_Proofs Wf_Check Bcast_Model Bcast_Proofs Copy_Model Copy_Proofs Idx_Model Idx_Assign Elem_Model Elem_Proofs Rng_Model Date_Model New_Model Promo_Spec Promo_Model Promo_Proofs Promo_Props SF_Proofs SF_Arith SF_Cmp Cast_Spec Cast_Model Cast_SF Cast_Proofs Cast_Laws Cast_Props Close_Proofs Bitw_Spec Bitw_Model Bitw_Proofs Rnd_Spec Rnd_Model Rnd_Proofs Rnd_Round Rnd_Props Ari_Spec SF_Round Ari_Model Ari_Proofs Ari_Ord Ari_Next Ari_Props Red_Spec Red_Model Red_Proofs Cpx_Spec Cpx_Model Cpx_Proofs CpxA_Spec CpxA_Proofs Fred_Spec Fred_Model Fred_Proofs Fred_Props Sqrt_Spec Sqrt_Model Sqrt_Proofs Sqrt_Half Var_Spec Var_Model Var_Proofs Avg_Model.
From Verif Require Cum_Proofs Lay_Copy Mean_Proofs.
Local Open Scope Z_scope.

Lemma float_axis_good x axis z : float_array x -> (axis < length (shape_of x))%nat -> in_memory (reduced_shape axis (shape_of x)) -> float_axis RSum x axis = Ok z -> good z.
Proof.
  intros [G K] HA HM EZ. pose proof G as (N & W & HE & _). destruct (nth_error (a_shape (n_arr x)) axis) as [n|] eqn:Hn; [|apply nth_error_None in Hn; unfold shape_of in HA; lia].
  pose proof (wf_map flt _ _ W) as W'. destruct (lanes_exist _ _ axis n W' Hn) as [L EL]. unfold float_axis in EZ.
  destruct (dispatch_reduce_axis_spec (fred_init (n_kind x) RSum) (fred_comb (n_kind x) RSum) _ _ axis n L W' Hn EL) as (F & HF & ER). rewrite ER in EZ. cbn [bind fst snd] in EZ. injection EZ as <-.
  apply Cum_Proofs.fresh_good; [exact N| |exact HM|].
  - rewrite !map_length, prod_reduced, <- all_idx_length, <- (map_length (map Some) L), <- EL, map_length. reflexivity.
  - apply Forall_forall. intros v Hv. apply in_map_iff in Hv as (s & <- & Hs). apply in_map_iff in Hs as (l & <- & Hl). apply float_element; [exact K|].
    assert (VI : valid_in (n_kind x) (fred_init (n_kind x) RSum)) by (destruct K as [-> |[-> | ->]]; reflexivity).
    assert (ST : stable (n_kind x) (fun _ _ => True) (fred_comb (n_kind x) RSum)) by (split; intros; (split; [|exact I]); apply float_elem_valid; try assumption; reflexivity).
    assert (FV : Forall (valid_in (n_kind x)) l).
    { apply Forall_forall. intros y Hy. apply (in_map (map Some)) in Hl. rewrite <- EL in Hl. apply in_map_iff in Hl as (oi & EO & _). assert (In (Some y) (map Some l)) as HS by (apply in_map; exact Hy). rewrite <- EO in HS.
      unfold Red_Spec.lane in HS. apply in_map_iff in HS as (j & EJ & _). apply load_in in EJ. apply in_map_iff in EJ as (w & <- & Hw). rewrite Forall_forall in HE. specialize (HE w Hw). destruct (element_float _ w K HE) as (u & -> & V). exact V. }
    destruct HF as [-> | ->]; [apply (inv_reduce8 _ (fun _ _ => True) _ _ VI I ST ltac:(intros ? ? ? ? ?; exact I) _ FV)|apply (inv_fold _ (fun _ _ => True) _ _ VI I ST _ FV)].
Qed.
Lemma count_value k n : float_kind k -> Z.of_nat n < 2 ^ fst (format k) -> element k (write_f64 k (f64_int (Z.of_nat n))) /\ real_value (write_f64 k (f64_int (Z.of_nat n))) = Fin (Z.of_nat n * one).
Proof.
  intros K HN. destruct (float_kind_real _ K) as [RK _]. assert (Z.of_nat n < 2 ^ 53) as H53 by (eapply Z.lt_le_trans; [exact HN|destruct K as [-> |[-> | ->]]; vm_compute; discriminate]).
  destruct (count_whole (Z.of_nat n) ltac:(lia)) as [V E]. split; [apply write_element; assumption|].
  pose proof (whole_holds (fst (format k)) (snd (format k)) (Z.of_nat n) (kind_format k K) ltac:(lia)) as HW.
  destruct K as [-> |[-> | ->]]; cbn [write_f64]; [| |exact E]; cbn [real_value value fst].
  - destruct (to_format_rounded 53 1024 11 16 (f64_int (Z.of_nat n)) f64_format (kind_format Float16 ltac:(auto)) V) as [R _]. rewrite E in R. apply (fmt_rounded_exact 11 16 _ 1 _ _ ltac:(lia) R (kind_format Float16 ltac:(auto)) HW). ring.
  - destruct (to_format_rounded 53 1024 24 128 (f64_int (Z.of_nat n)) f64_format (kind_format Float32 ltac:(auto)) V) as [R _]. rewrite E in R. apply (fmt_rounded_exact 24 128 _ 1 _ _ ltac:(lia) R (kind_format Float32 ltac:(auto)) HW). ring.
Qed.
Lemma scale_kind k N D c e : 0 < c -> rounded k (N * c) (D * c) e -> rounded k N D e.
Proof.
  intros HC. assert (RG : in_range k (N * c) (D * c) <-> in_range k N D).
  { unfold in_range. destruct (format k) as [p emax]. rewrite Z.abs_mul, (Z.abs_eq c) by lia. set (B := (2 ^ (p + 1) - 1) * 2 ^ (emax - p + 1074)). replace (2 * (Z.abs N * c)) with (2 * Z.abs N * c) by ring. rewrite Z.mul_assoc. symmetry. apply Z.mul_lt_mono_pos_r. exact HC. }
  unfold rounded. destruct e as [|s|r]; [auto| |].
  - intros [A B]. split; [rewrite <- RG; exact A|]. rewrite B. split; intros; nia.
  - intros [A [F H]]. split; [apply RG; exact A|]. split; [exact F|]. intros r' F'. destruct (H r' F') as [H1 H2].
    assert (E : forall y, Z.abs (N * c - y * (D * c)) = Z.abs (N - y * D) * c) by (intros y; rewrite <- (Z.abs_eq c) at 3 by lia; rewrite <- Z.abs_mul; f_equal; ring). rewrite !E in *.
    split; [apply (Zmult_lt_0_le_reg_r _ _ c HC); exact H1|]. intros Q. apply H2. rewrite Q. reflexivity.
Qed.
