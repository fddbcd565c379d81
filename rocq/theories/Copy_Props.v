(* Claim C12 (and the copying case of swapaxes). *)
From Verif Require Import Base Lists Arr_Spec Arr_Model Arr_Wf Arr_Proofs Arr_Hist Copy_Model Copy_Proofs.
Local Open Scope nat_scope.

(* every copy path yields a fresh row-major buffer with the view's elements *)
Theorem C12_copy_faithful : forall V (buf : list V) a typed,
  wf buf a ->
  exists vals, copy_buf buf a typed = Ok vals /\ length vals = size a /\
    forall idx, inb idx (a_shape a) ->
      get vals (fresh (a_shape a) (a_item a)) idx = get buf a idx.
Proof.
  intros V buf a typed W. destruct (copy_buf_spec buf a typed W) as (vals & E1 & E2 & HL).
  exists vals. split; [exact E1|]. split; [exact HL|]. intros idx Hi.
  pose proof (elems_get buf vals a (fun v => v) idx (a_item a) (proj1 W) E2 Hi) as H.
  rewrite map_id in H. rewrite H. destruct (get buf a idx); reflexivity.
Qed.

(* the float64/int64 fast paths agree with the generic path *)
Theorem C12_copy_paths_agree : forall V (buf : list V) a,
  wf buf a -> copy_buf buf a true = copy_buf buf a false.
Proof.
  intros V buf a W. destruct (copy_buf_spec buf a true W) as (v1 & E1 & F1 & _).
  destruct (copy_buf_spec buf a false W) as (v2 & E2 & F2 & _).
  rewrite E1, E2. rewrite F1 in F2. apply map_Some_inj in F2. congruence.
Qed.

(* the copy is itself a well-formed C-contiguous array on its own buffer *)
Theorem C12_copy_wf : forall V (buf : list V) a typed vals,
  wf buf a -> copy_buf buf a typed = Ok vals ->
  (Z.of_nat (size a) * a_item a < 2 ^ 63)%Z ->
  wf vals (fresh (a_shape a) (a_item a)) /\ a_c (fresh (a_shape a) (a_item a)) = true.
Proof.
  intros V buf a typed vals W E HB. destruct (copy_buf_spec buf a typed W) as (v & E1 & _ & HL).
  rewrite E in E1. injection E1 as <-. split; [|reflexivity].
  apply fresh_wf; [apply W|rewrite HL; exact HB|exact HL].
Qed.

(* astype applies the element conversion to each element and nothing else *)
Theorem C12_astype : forall V W (conv : V -> W) (buf : list V) a item,
  wf buf a -> (0 < item)%Z ->
  exists vals, astype_conv conv buf a = Ok vals /\ length vals = size a /\
    forall idx, inb idx (a_shape a) ->
      get vals (fresh (a_shape a) item) idx = option_map conv (get buf a idx).
Proof.
  intros V W conv buf a item Wf HI. destruct (astype_conv_spec conv buf a Wf) as (vals & E1 & E2).
  exists (map conv vals). split; [exact E1|]. split.
  - rewrite map_length. destruct (wf_elems buf a Wf) as (v & E & HL).
    rewrite E2 in E. apply map_Some_inj in E. subst; exact HL.
  - intros idx Hi. apply elems_get; assumption.
Qed.

(* copying after any guarded history of view operations *)
Theorem C12_copy_after_history : forall V (buf : list V) sh item ops sh' f typed,
  (0 < item)%Z -> (Z.of_nat (length buf) * item < 2 ^ 63)%Z -> length buf = prod sh ->
  history ops sh sh' f -> steps_ok ops (fresh sh item) = true ->
  exists a vals, run_vops ops (fresh sh item) = Ok a /\ copy_buf buf a typed = Ok vals /\
    map Some vals = map (fun idx => nth_error buf (rm_rank sh (f idx))) (all_idx sh').
Proof.
  intros V buf sh item ops sh' f typed HI HB HL HH HG.
  pose proof (fresh_wf buf sh item HI HB HL) as W0.
  destruct (history_refines buf ops (fresh sh item) sh' f W0 HH HG) as (a & E & S1 & W & G).
  destruct (copy_buf_spec buf a typed W) as (vals & E1 & E2 & _).
  exists a, vals. split; [exact E|]. split; [exact E1|]. rewrite <- E2. unfold elems. rewrite S1.
  apply map_ext_in. intros idx Hi. apply in_all_idx in Hi.
  destruct (G idx Hi) as [_ ->]. rewrite rm_rank_eq. apply fresh_get; exact HI.
Qed.

Theorem C12_swapaxes_equal_axes_copies : forall V (buf : list V) a typed i,
  wf buf a -> i < ndim a ->
  exists vals a', swapaxes_nd buf a typed i i = Ok (vals, a') /\ a_shape a' = a_shape a /\
    forall idx, inb idx (a_shape a) -> get vals a' idx = get buf a idx.
Proof.
  intros V buf a typed i W Hi. unfold swapaxes_nd.
  destruct (Nat.ltb_spec i (ndim a)); [|lia]. cbn [andb]. rewrite Nat.eqb_refl.
  destruct (C12_copy_faithful V buf a typed W) as (vals & E & _ & G). rewrite E. cbn [bind].
  eexists; eexists; split; [reflexivity|]. split; [reflexivity|exact G].
Qed.

Example C12_nonvacuous :
  (* a row broadcast, a column broadcast and a transposed view *)
  (exists a, broadcast_to (fresh [3] 8) [2; 3] = Ok a /\ a_c a = false /\ a_strides a = [0; 8]%Z /\
     copy_buf [7; 8; 9] a true = Ok [7; 8; 9; 7; 8; 9]) /\
  (exists a, broadcast_to (fresh [3; 1] 8) [3; 2] = Ok a /\ a_strides a = [8; 0]%Z /\
     copy_buf [7; 8; 9] a true = Ok [7; 7; 8; 8; 9; 9]) /\
  copy_buf (seq 0 6) (transpose (fresh [2; 3] 8)) true = Ok [0; 3; 1; 4; 2; 5].
Proof.
  split; [eexists; split; [vm_compute; reflexivity|]; repeat split|].
  split; [eexists; split; [vm_compute; reflexivity|]; repeat split|reflexivity].
Qed.

Print Assumptions C12_copy_faithful.
Print Assumptions C12_copy_paths_agree.
Print Assumptions C12_copy_wf.
Print Assumptions C12_astype.
Print Assumptions C12_copy_after_history.
Print Assumptions C12_swapaxes_equal_axes_copies.
