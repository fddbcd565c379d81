(* C51-C54, C70, C71: the random generator. *)
From Coq Require Import SpecFloat Permutation.
From Verif Require Import Base Lists Arr_Spec Arr_Model Arr_Wf Arr_Proofs Copy_Model Copy_Proofs Idx_Model Int_Model Int_Proofs F64_Model F64_Proofs Wf_Check.
From Verif Require Import SF_Proofs Rng_Spec Rng_Model Rng_Lcg Rng_Proofs Rng_Shuffle.
Local Open Scope Z_scope.

(* ---- C51 ------------------------------------------------------------------------- *)

(* the update is a bijection of the 128-bit states, for every increment *)
Theorem C51_step_bijective : forall inc t, 0 <= t < 2 ^ 128 ->
  exists! s, 0 <= s < 2 ^ 128 /\ step (mkPcg s inc) = mkPcg t inc.
Proof.
  intros inc t Ht. destruct (mul_odd_bij 128 multiplier ((t - inc) mod 2 ^ 128) mult_odd) as (s & (Hs & Es) & U).
  { rewrite <- pow128. apply Z.mod_pos_bound. reflexivity. }
  rewrite <- pow128 in *. exists s. split.
  - split; [exact Hs|]. unfold step. cbn [g_state g_inc]. f_equal. rewrite Es.
    rewrite Z.add_mod_idemp_l by discriminate. replace (t - inc + inc) with t by ring. now apply Z.mod_small.
  - intros s' (Hs' & E). apply U. split; [exact Hs'|]. apply (f_equal g_state) in E. unfold step in E. cbn [g_state g_inc] in E. rewrite <- E.
    rewrite Zminus_mod_idemp_l. replace ((s' * multiplier) mod 2 ^ 128 + inc - inc) with ((s' * multiplier) mod 2 ^ 128) by ring.
    symmetry. apply Z.mod_mod. discriminate.
Qed.

(* for odd increments the state comes back exactly after the multiples of 2^128
   steps, and every state is reached from every other *)
Theorem C51_full_period : forall s inc, 0 <= s < 2 ^ 128 -> Z.odd inc = true ->
  (forall k, Nat.iter k step (mkPcg s inc) = mkPcg s inc <-> (2 ^ 128 | Z.of_nat k)) /\
  (forall t, 0 <= t < 2 ^ 128 -> exists k, Z.of_nat k < 2 ^ 128 /\ Nat.iter k step (mkPcg s inc) = mkPcg t inc).
Proof.
  intros s inc Hs Hi. split.
  - intro k. rewrite iter_step. rewrite <- (period k s inc Hs Hi). split; [intro E; now injection E | intro E; now rewrite E].
  - intros t Ht. destruct (reach s inc t Hs Ht Hi) as (k & Hk & E). exists k. split; [exact Hk|]. rewrite iter_step. now rewrite E.
Qed.

(* over the states with any fixed lower half, every 64-bit output occurs exactly
   once; so over a full period every output occurs exactly 2^64 times *)
Theorem C51_equidistributed : forall lo y, 0 <= lo < 2 ^ 64 -> 0 <= y < 2 ^ 64 ->
  exists! hi, 0 <= hi < 2 ^ 64 /\ fst (next_u64 (mkPcg (hi * 2 ^ 64 + lo) 1)) = y.
Proof.
  intros lo y Hl Hy. destruct (dxsm_bij lo y Hy) as (hi & (Hh & E) & U). exists hi. split.
  - split; [exact Hh|]. cbn [next_u64 fst g_state]. now rewrite output_dxsm.
  - intros hi' (Hh' & E'). apply U. split; [exact Hh'|]. rewrite <- E'. cbn [next_u64 fst g_state]. now rewrite output_dxsm.
Qed.

(* generators in the same state produce the same numbers, also when the stream is
   taken in pieces *)
Theorem C51_resume : forall n m g,
  fst (stream next_u64 (n + m) g) = fst (stream next_u64 n g) ++ fst (stream next_u64 m (snd (stream next_u64 n g))) /\
  snd (stream next_u64 n g) = Nat.iter n step g.
Proof.
  induction n as [|n IH]; intros m g; [split; reflexivity|]. rewrite iter_succ_r.
  specialize (IH m (step g)).
  assert (forall k, stream next_u64 (S k) g = (output (g_state g) :: fst (stream next_u64 k (step g)), snd (stream next_u64 k (step g)))) as HS
    by (intro k; cbn [stream next_u64]; destruct (stream next_u64 k (step g)); reflexivity).
  cbn [Nat.add]. rewrite !HS. cbn [fst snd]. destruct IH as (-> & ->). split; reflexivity.
Qed.
Example C51_nonvacuous :
  step (mkPcg 5 3) = mkPcg (5 * multiplier + 3) 3 /\ Z.odd 3 = true /\
  fst (stream next_u64 3 (mkPcg (2 ^ 64 + 1) 1)) = [15750249268501119521; 12620380960013447203; 8879851685999176402].
Proof. repeat split; vm_compute; reflexivity. Qed.

(* ---- C52 ------------------------------------------------------------------------- *)

(* whatever the source of 64-bit numbers, every value is k * 2^-53 with 0 <= k < 2^53 *)
Theorem C52_unit_interval : forall {G} (next : G -> Z * G), (forall g, 0 <= fst (next g) < 2 ^ 64) ->
  forall n g, length (fst (random next n g)) = n /\
    Forall (fun x => exists k, 0 <= k < 2 ^ 53 /\ sf_is x k (-53)) (fst (random next n g)).
Proof.
  intros G next Hn. induction n as [|n IH]; intro g; cbn [random]; [split; [reflexivity | constructor]|].
  pose proof (Hn g) as Hu. destruct (next g) as [u g1]. cbn [fst] in Hu. specialize (IH g1). destruct (random next n g1) as [l g2]. cbn [fst] in *.
  destruct IH as (HL & HF). split; [cbn; lia|]. constructor; [|exact HF].
  exists (u / 2 ^ 11). split; [split; [apply Z.div_pos; lia | apply Z.div_lt_upper_bound; lia]|]. now apply unit_value.
Qed.
(* each of the 2^53 values comes from exactly 2^11 consecutive 64-bit numbers *)
Theorem C52_even : forall u k, 0 <= u < 2 ^ 64 -> 0 <= k < 2 ^ 53 ->
  (sf_is (unit_f64 u) k (-53) <-> k * 2 ^ 11 <= u < k * 2 ^ 11 + 2 ^ 11).
Proof.
  intros u k Hu Hk. pose proof (unit_value u Hu) as V.
  assert (sf_is (unit_f64 u) k (-53) <-> u / 2 ^ 11 = k) as ->.
  { split; [|now intros <-]. intro H. destruct (unit_f64 u) as [s|s| |s m e]; cbn [sf_is] in *; try tauto; [congruence|].
    rewrite V in H. apply Z.mul_reg_r in H; [exact H|]. apply Z.pow_nonzero; lia. }
  pose proof (Z.div_mod u (2 ^ 11) ltac:(lia)). pose proof (Z.mod_pos_bound u (2 ^ 11) ltac:(lia)). split; [intros <-; lia|].
  intro H1. symmetry. apply Z.div_unique with (u - k * 2 ^ 11); lia.
Qed.
Example C52_nonvacuous :
  fst (random next_u64 2 (mkPcg (2 ^ 64 + 1) 1)) = [S754_finite false 7690551400635312 (-53); S754_finite false 6162295390631566 (-53)] /\
  unit_f64 (2 ^ 64 - 1) = S754_finite false (2 ^ 53 - 1) (-53) /\ unit_f64 0 = S754_zero false.
Proof. repeat split; vm_compute; reflexivity. Qed.

(* ---- C53 ------------------------------------------------------------------------- *)

(* a bounded draw is below the bound *)
Theorem C53_in_range : forall {G} (next : G -> Z * G), (forall g, 0 <= fst (next g) < 2 ^ 64) ->
  forall fuel r g v g', 0 < r < 2 ^ 64 -> bounded next fuel r g = Ok (v, g') -> 0 <= v < r.
Proof. intros G next Hn fuel r g v g' Hr E. exact (bounded_range next fuel r Hn Hr g v g' E). Qed.

(* every value is produced by exactly floor(2^64 / r) of the 64-bit inputs that
   are not rejected (here the source yields x, and no second draw is allowed) *)
Theorem C53_uniform : forall r v, 0 < r < 2 ^ 64 -> 0 <= v < r ->
  exists lo, 0 <= lo /\ lo + 2 ^ 64 / r <= 2 ^ 64 /\
    forall x, 0 <= x < 2 ^ 64 -> (bounded (fun g : unit => (x, g)) 0 r tt = Ok (v, tt) <-> lo <= x < lo + 2 ^ 64 / r).
Proof.
  intros r v Hr Hv. destruct (lemire (2 ^ 64) r v Hr Hv) as (lo & H0 & H1 & H). exists lo. split; [exact H0|]. split; [exact H1|].
  intros x Hx. rewrite <- H. destruct (Z_le_gt_dec (2 ^ 64 mod r) ((x * r) mod 2 ^ 64)) as [A|A].
  - rewrite (bounded_accept (fun t : unit => (x, t)) 0 r tt x tt eq_refl Hr A). split; [intro E; injection E as E; tauto | intros (_ & ->); reflexivity].
  - rewrite (bounded_reject (fun t : unit => (x, t)) 0 r tt x tt eq_refl Hr ltac:(lia)). split; [discriminate | lia].
Qed.
(* an accepted input decides the draw; a rejected one is forgotten and the draw
   starts again with the next one *)
Theorem C53_restart : forall {G} (next : G -> Z * G) fuel r g x g1, 0 < r < 2 ^ 64 -> next g = (x, g1) ->
  bounded next fuel r g =
    match bounded (fun t : unit => (x, t)) 0 r tt with
    | Ok (v, _) => Ok (v, g1)
    | _ => match fuel with O => Err | S f => bounded next f r g1 end
    end.
Proof.
  intros G next fuel r g x g1 Hr En. destruct (Z_le_gt_dec (2 ^ 64 mod r) ((x * r) mod 2 ^ 64)) as [A|A].
  - rewrite (bounded_accept (fun t : unit => (x, t)) 0 r tt x tt eq_refl Hr A). now apply bounded_accept.
  - rewrite (bounded_reject (fun t : unit => (x, t)) 0 r tt x tt eq_refl Hr ltac:(lia)). apply (bounded_reject _ fuel r g x g1 En Hr). lia.
Qed.
(* with an odd increment the rejection loop ends, from every state and for every bound *)
Theorem C53_terminates : forall s inc r, 0 <= s < 2 ^ 128 -> Z.odd inc = true -> 0 < r < 2 ^ 64 ->
  exists fuel v g', forall fuel', (fuel <= fuel')%nat -> bounded next_u64 fuel' r (mkPcg s inc) = Ok (v, g').
Proof.
  intros s inc r Hs Hi Hr. destruct (accepted_exists r Hr) as (x & Hx & Ha).
  destruct (dxsm_bij 0 x Hx) as (hi & (Hh & E) & _).
  assert (u64 0) as H0 by (split; [lia | reflexivity]).
  assert (u128 (hi * 2 ^ 64 + 0)) as Ht by (unfold u64, u128 in *; change (2 ^ 128) with (2 ^ 64 * 2 ^ 64); nia).
  destruct (reach s inc (hi * 2 ^ 64 + 0) Hs Ht Hi) as (k & _ & Ek).
  destruct (bounded_stops k (mkPcg s inc) r Hr) as (f & v & g' & Ev).
  { rewrite iter_step. cbn [g_state]. rewrite Ek, output_dxsm, E by assumption. exact Ha. }
  exists f, v, g'. intros f' Hf. exact (bounded_mono next_u64 f r (mkPcg s inc) v g' Hr Ev f' Hf).
Qed.
(* integers(low, high) is low plus the bounded draw, so it inherits the above;
   only while the bounds stay within the integers that binary64 holds exactly *)
Theorem C53_integers_partial : forall {G} (next : G -> Z * G), (forall g, 0 <= fst (next g) < 2 ^ 64) ->
  forall fuel low high, - 2 ^ 53 <= low < high -> high <= 2 ^ 53 ->
  (forall g, integer next fuel low high g = bind (bounded next fuel (high - low) g) (fun p => Ok (low + fst p, snd p))) /\
  (forall n g l g', integers next fuel low high n g = Ok (l, g') -> length l = n /\ Forall (fun v => low <= v < high) l).
Proof.
  intros G next Hn fuel low high Hl Hh.
  assert (0 < high - low < 2 ^ 64) as Hr by lia.
  assert (forall z, - 2 ^ 63 <= z < 2 ^ 63 -> wrap int64 z = z) as HW by (intros z Hz; apply wrap_id; [reflexivity | change (- 2 ^ 63 <= z <= 2 ^ 63 - 1); lia]).
  assert (forall g, integer next fuel low high g = bind (bounded next fuel (high - low) g) (fun p => Ok (low + fst p, snd p))) as HI.
  { intro g. unfold integer. rewrite (Z.mod_small (high - low)) by lia.
    destruct (bounded next fuel (high - low) g) as [[v g']| | |] eqn:E; cbn [bind fst snd]; try reflexivity.
    apply (bounded_range next fuel (high - low) Hn Hr) in E. rewrite (HW v) by lia. rewrite HW by lia.
    rewrite through_f64_small; [reflexivity | | lia]. change (- 2 ^ 63 <= low + v <= 2 ^ 63 - 1); lia. }
  split; [exact HI|]. induction n as [|n IH]; intros g l g' H; cbn [integers] in H.
  - injection H as <- <-. split; [reflexivity | constructor].
  - rewrite HI in H. destruct (bounded next fuel (high - low) g) as [[v g1]| | |] eqn:E; cbn [bind fst snd] in H; try discriminate.
    destruct (integers next fuel low high n g1) as [[l' g2]| | |] eqn:E2; cbn [bind fst snd] in H; try discriminate. injection H as <- <-.
    apply (bounded_range next fuel (high - low) Hn Hr) in E. apply IH in E2 as (HL & HF). split; [cbn; lia|]. constructor; [lia | exact HF].
Qed.
(* ... beyond that the value is rounded to binary64: high itself can come out *)
Theorem C53_integers_refuted : exists g low high l g', - 2 ^ 63 <= low < high /\ high < 2 ^ 63 /\ 0 <= g_state g < 2 ^ 128 /\ Z.odd (g_inc g) = true /\
  integers next_u64 0 low high 1 g = Ok (l, g') /\ ~ Forall (fun v => low <= v < high) l.
Proof.
  exists (mkPcg (2 ^ 64 + 1) 1), (2 ^ 53 + 2), (2 ^ 53 + 4), [2 ^ 53 + 4].
  eexists. split; [lia|]. split; [lia|]. split; [cbn; lia|]. split; [reflexivity|]. split; [vm_compute; reflexivity|].
  intro F. inversion F. lia.
Qed.
(* an empty range is not rejected *)
Theorem C53_empty_range_refuted : forall fuel low g, - 2 ^ 53 <= low <= 2 ^ 53 -> integer next_u64 fuel low low g = Ok (low, g).
Proof.
  intros fuel low g H. unfold integer. rewrite Z.sub_diag. cbn [bounded Z.modulo Z.eqb]. change (0 mod 2 ^ 64) with 0. unfold bounded. cbn [Z.eqb bind fst snd].
  assert (forall z, - 2 ^ 63 <= z < 2 ^ 63 -> wrap int64 z = z) as HW by (intros z Hz; apply wrap_id; [reflexivity | change (- 2 ^ 63 <= z <= 2 ^ 63 - 1); lia]).
  rewrite (HW 0), Z.add_0_r, HW by lia. rewrite through_f64_small; [reflexivity | | lia]. change (- 2 ^ 63 <= low <= 2 ^ 63 - 1); lia.
Qed.
Example C53_nonvacuous :
  (exists l g, integers next_u64 0 (-3) 4 5 (mkPcg (2 ^ 64 + 1) 1) = Ok (l, g) /\ l = [2; 1; 0; 1; 0]) /\
  bounded (fun g : unit => (0, g)) 0 3 tt = Err /\ bounded (fun g : unit => (1, g)) 0 3 tt = Ok (0, tt).
Proof. split; [eexists; eexists; split; vm_compute; reflexivity|]. split; vm_compute; reflexivity. Qed.

(* ---- C54 ------------------------------------------------------------------------- *)

(* shuffling with any sequence of draws in range permutes the entries *)
Theorem C54_permutes : forall {A} (data : list A) js, shuffle_draws (length data) js ->
  exists data', shuffle_data pop data js = Ok (data', []) /\ Permutation data data'.
Proof.
  intros A data js HJ. destruct data as [|x data]; [exists []; inversion HJ; split; [reflexivity | constructor]|].
  destruct (loop_perm (length (x :: data) - 1) (x :: data) js) as (d' & E & P & _); [cbn; lia | exact HJ|].
  exists d'. split; [exact E | exact P].
Qed.
(* every order of distinct entries comes from exactly one sequence of draws *)
Theorem C54_bijection : forall {A} (data data' : list A), NoDup data -> Permutation data data' ->
  exists! js, shuffle_draws (length data) js /\ shuffle_data pop data js = Ok (data', []).
Proof.
  intros A data data' HN HP. destruct data as [|x data].
  - apply Permutation_nil in HP as ->. exists []. split; [split; [constructor | reflexivity]|]. intros js (H & _). inversion H. reflexivity.
  - destruct (loop_onto (length (x :: data) - 1) (x :: data) data') as (js & HJ & E & U); [cbn; lia | exact HN | exact HP | |].
    { intros k Hk. cbn [length] in Hk. assert (nth_error (x :: data) k = None) as -> by (apply nth_error_None; cbn; lia).
      apply nth_error_None. rewrite <- (Permutation_length HP). cbn. lia. }
    exists js. split; [split; assumption|]. intros js' (HJ' & E'). symmetry. now apply U.
Qed.
(* the generator supplies such a sequence: one bounded draw per step *)
Theorem C54_generator : forall {G A} (next : G -> Z * G), (forall g, 0 <= fst (next g) < 2 ^ 64) ->
  forall fuel (data data' : list A) g g', Z.of_nat (length data) < 2 ^ 64 -> shuffle_data (draw_u64 next fuel) data g = Ok (data', g') ->
  Permutation data data' /\ exists js, shuffle_draws (length data) js /\ shuffle_data pop data js = Ok (data', []).
Proof.
  intros G A next Hn fuel data data' g g' HL H.
  destruct (loop_draws (draw_u64 next fuel) swap (length data) (draw_u64_lt next fuel (length data) Hn HL) _ _ _ _ _ (rev_seq_lt (length data)) H) as (js & HJ & E).
  rewrite map_S_rev_seq in HJ. destruct (C54_permutes data js HJ) as (d2 & E2 & P).
  assert (d2 = data') as -> by (unfold shuffle_data in E2; rewrite E in E2; now injection E2). split; [exact P|]. exists js. split; assumption.
Qed.
(* permutation(n): every integer below n once, while n is exact in binary64 *)
Theorem C54_permutation_partial : forall {G} (next : G -> Z * G), (forall g, 0 <= fst (next g) < 2 ^ 64) ->
  forall fuel n g l g', Z.of_nat n <= 2 ^ 53 -> permutation (draw_u64 next fuel) n g = Ok (l, g') ->
  Permutation (map Z.of_nat (seq 0 n)) l.
Proof.
  intros G next Hn fuel n g l g' HL H. unfold permutation in H.
  assert (map (fun i => f64_of_int (Z.of_nat i)) (seq 0 n) = map Z.of_nat (seq 0 n)) as E.
  { apply map_ext_in. intros i Hi. apply in_seq in Hi. apply f64_of_int_small. lia. }
  rewrite E in H. apply (C54_generator next Hn) in H; [exact (proj1 H)|]. rewrite map_length, seq_length. lia.
Qed.
(* shuffle(a) of a contiguous array with items of eight bytes: the rows are permuted and nothing else changes *)
Theorem C54_shuffle_partial : forall {V} (buf : list V) a n rest js, wf buf a -> a_c a = true -> a_item a = 8 ->
  a_shape a = n :: rest -> (2 <= n)%nat -> (0 < prod rest)%nat -> shuffle_draws n js ->
  exists ps buf', Permutation (seq 0 n) ps /\ shuffle pop buf a js = Ok (buf', []) /\ length buf' = length buf /\
    (forall i p t, inb t rest -> nth_error ps i = Some p -> get buf' a (i :: t) = get buf a (p :: t)) /\
    (forall q, (q < Z.to_nat (a_off a / 8) \/ Z.to_nat (a_off a / 8) + size a <= q)%nat -> nth_error buf' q = nth_error buf q).
Proof.
  intros V buf a n rest js W Hc H8 Hsh Hn Hr HJ.
  destruct (C54_permutes (seq 0 n) js) as (ps & E & P); [now rewrite seq_length|].
  destruct (shuffle_contig buf a n rest js ps W Hc H8 Hsh HJ E Hn Hr) as (buf' & Hb). exists ps, buf'. split; [exact P | exact Hb].
Qed.
(* shuffle(a[::2]) moves the skipped elements *)
Theorem C54_shuffle_strided_refuted : exists (buf buf' : list Z) a js, wf buf a /\ a_item a = 8 /\ shuffle_draws 2 js /\
  shuffle pop buf a js = Ok (buf', []) /\
  (get buf' a [0%nat] = Some 20 /\ nth_error buf 1 = Some 20 /\ ~ Permutation (elems buf a) (elems buf' a)).
Proof.
  exists [10; 20; 30; 40], [20; 10; 30; 40], (mkArr 0 [2]%nat [16] 8 false false), [0%nat].
  split; [apply wf_check_sound; vm_compute; reflexivity|]. split; [reflexivity|]. split; [repeat constructor|].
  split; [vm_compute; reflexivity|]. split; [vm_compute; reflexivity|]. split; [reflexivity|].
  intro P. apply (Permutation_in (Some 10)) in P; vm_compute in *; [|now left]. intuition discriminate.
Qed.
(* permutation(a) of an integer array returns other values *)
Theorem C54_permutation_array_refuted : exists (buf : list Z) a l, wf buf a /\
  permutation_of pop f64_of_int buf a [] = Ok (l, []) /\ ~ Permutation (elems buf a) (map Some l).
Proof.
  exists [2 ^ 53 + 1], (mkArr 0 [1]%nat [8] 8 true true), [2 ^ 53].
  split; [apply wf_check_sound; vm_compute; reflexivity|]. split; [vm_compute; reflexivity|].
  intro P. apply (Permutation_in (Some (2 ^ 53 + 1))) in P; vm_compute in *; [|now left]. intuition discriminate.
Qed.
Example C54_nonvacuous :
  shuffle_draws 4 [0; 2; 1]%nat /\ shuffle_data pop [10; 20; 30; 40] [0; 2; 1]%nat = Ok ([40; 20; 30; 10], []) /\
  (exists l g, permutation (draw_u64 next_u64 9) 5 (mkPcg (2 ^ 64 + 1) 1) = Ok (l, g) /\ l <> [0; 1; 2; 3; 4]) /\
  (let a := mkArr 8 [2; 2]%nat [16; 8] 8 true false in wf [7; 1; 2; 3; 4; 9] a /\ shuffle_draws 2 [0%nat] /\
     shuffle pop [7; 1; 2; 3; 4; 9] a [0%nat] = Ok ([7; 3; 4; 1; 2; 9], [])).
Proof.
  split; [repeat constructor|]. split; [vm_compute; reflexivity|]. split.
  - eexists. eexists. split; [vm_compute; reflexivity | discriminate].
  - split; [apply wf_check_sound; vm_compute; reflexivity|]. split; [repeat constructor | vm_compute; reflexivity].
Qed.

(* ---- C70 ------------------------------------------------------------------------- *)

(* k of n without replacement: distinct positions, from any draws in range *)
Theorem C70_distinct : forall n k js, (0 < n)%nat -> (k <= n)%nat -> choice_draws n k js ->
  exists out, choice pop false n k js = Ok (out, []) /\ length out = k /\ NoDup out /\ Forall (fun i => i < n)%nat out.
Proof.
  intros n k js Hn Hk HJ. unfold choice. destruct (Nat.eqb_spec n 0); [lia|]. destruct (Nat.ltb_spec n k); [lia|]. cbn [negb andb].
  destruct (choice_run n k 0 (seq 0 n) js) as (out & E & HL & ND & HI); [rewrite seq_length; lia | lia | apply seq_NoDup | exact HJ|].
  exists out. split; [exact E|]. split; [exact HL|]. split; [exact ND|]. apply Forall_forall. intros i Hi. apply HI, in_seq in Hi. lia.
Qed.
(* every ordered selection comes from exactly one sequence of draws *)
Theorem C70_bijection : forall n k out, (0 < n)%nat -> (k <= n)%nat -> length out = k -> NoDup out -> Forall (fun i => i < n)%nat out ->
  exists! js, choice_draws n k js /\ choice pop false n k js = Ok (out, []).
Proof.
  intros n k out Hn Hk HL HN HF. unfold choice. destruct (Nat.eqb_spec n 0); [lia|]. destruct (Nat.ltb_spec n k); [lia|]. cbn [negb andb].
  destruct (choice_onto n k 0 (seq 0 n) out) as (js & HJ & E & U); [rewrite seq_length; lia | lia | apply seq_NoDup | exact HL | exact HN | |].
  { intros i Hi. apply in_seq. rewrite Forall_forall in HF. specialize (HF i Hi). lia. }
  exists js. split; [split; assumption|]. intros js' (HJ' & E'). symmetry. now apply U.
Qed.
(* the generator: with and without replacement, for every argument *)
Theorem C70_generator : forall {G} (next : G -> Z * G), (forall g, 0 <= fst (next g) < 2 ^ 64) ->
  forall fuel replace n k g out g', Z.of_nat n < 2 ^ 64 -> choice (draw_u64 next fuel) replace n k g = Ok (out, g') ->
  length out = k /\ Forall (fun i => i < n)%nat out /\
  (replace = false -> NoDup out /\ exists js, choice_draws n k js /\ choice pop false n k js = Ok (out, [])).
Proof.
  intros G next Hn fuel replace n k g out g' HL H. pose proof (draw_u64_lt next fuel n Hn HL) as HD.
  unfold choice in H. destruct (Nat.eqb_spec n 0) as [|Hn0]; [discriminate|]. destruct replace; cbn [negb andb] in H.
  - assert (length out = k /\ Forall (fun i => i < n)%nat out) as (A & B); [|split; [exact A|]; split; [exact B | discriminate]].
    clear HL. revert g out g' H. induction k as [|k IH]; intros g out g' H; cbn [choice_with] in H.
    + injection H as <- <-. split; [reflexivity | constructor].
    + destruct (draw_u64 next fuel n g) as [[j g1]| | |] eqn:E; cbn [bind fst snd] in H; try discriminate.
      destruct (choice_with (draw_u64 next fuel) k n g1) as [[l g2]| | |] eqn:E2; cbn [bind fst snd] in H; try discriminate. injection H as <- <-.
      apply IH in E2 as (A & B). apply HD in E; [|lia|lia]. split; [cbn; lia | constructor; assumption].
  - destruct (Nat.ltb_spec n k); [discriminate|].
    destruct (choice_legal (draw_u64 next fuel) n HD k 0 (seq 0 n) g out g' ltac:(lia) H) as (js & HJ & E).
    destruct (C70_distinct n k js ltac:(lia) ltac:(lia) HJ) as (out2 & E2 & A & B & C).
    pose proof E2 as E3. unfold choice in E3. destruct (Nat.eqb_spec n 0); [lia|]. destruct (Nat.ltb_spec n k); [lia|]. cbn [negb andb] in E3.
    rewrite E in E3. injection E3 as <-. split; [exact A|]. split; [exact C|]. intros _. split; [exact B|]. exists js. split; assumption.
Qed.
(* too large a sample is refused, not truncated *)
Theorem C70_too_many : forall {D} (draw : nat -> D -> res (nat * D)) n k d, (n < k)%nat -> choice draw false n k d = Err.
Proof. intros D draw n k d H. unfold choice. destruct (n =? 0)%nat; [reflexivity|]. apply Nat.ltb_lt in H. now rewrite H. Qed.
Example C70_nonvacuous :
  choice_draws 4 3 [3; 0; 1]%nat /\ choice pop false 4 3 [3; 0; 1]%nat = Ok ([3; 0; 1]%nat, []) /\
  exists l g, choice (draw_u64 next_u64 9) false 6 4 (mkPcg (2 ^ 64 + 1) 1) = Ok (l, g).
Proof. split; [repeat constructor|]. split; [vm_compute; reflexivity|]. eexists. eexists. vm_compute. reflexivity. Qed.

(* ---- C71 ------------------------------------------------------------------------- *)

(* whatever the binomial sampler returns within 0..n, the counts of a row are
   non-negative and add up to n *)
Theorem C71_total_partial : forall {G P} (binomial : Z -> P -> G -> option (Z * G)) positive pdiv psub one,
  (forall n p g c g', 0 <= n -> binomial n p g = Some (c, g') -> 0 <= c <= n) ->
  forall n pvals g l g', 0 <= n <= 2 ^ 53 -> multinomial binomial positive pdiv psub one n pvals g = Ok (l, g') ->
  length l = length pvals /\ Forall (fun c => 0 <= c) l /\ fold_right Z.add 0 l = n.
Proof.
  intros G P binomial positive pdiv psub one HB n pvals g l g' Hn H.
  assert (forall ps r pr g row r' g', 0 <= r <= n -> multi_row binomial positive pdiv psub ps r pr g = Ok (row, r', g') ->
    length row = length ps /\ Forall (fun c => 0 <= c <= n) row /\ 0 <= r' <= n /\ fold_right Z.add r' row = r) as HR.
  { clear H g l g' pvals. induction ps as [|p ps IH]; intros r pr g row r' g' Hr H; cbn [multi_row] in H.
    - injection H as <- <- <-. split; [reflexivity|]. split; [constructor|]. split; [lia | reflexivity].
    - destruct (positive pr).
      + destruct (binomial r (pdiv p pr) g) as [[c g1]|] eqn:E; [|discriminate]. apply HB in E; [|lia].
        rewrite Z.mod_small in H by lia.
        destruct (multi_row binomial positive pdiv psub ps (r - c) (psub pr p) g1) as [[[row1 r1] g2]| | |] eqn:E2; cbn [bind] in H; try discriminate.
        injection H as <- <- <-. apply IH in E2 as (A & B & C & D); [|lia].
        split; [cbn; lia|]. split; [constructor; [lia | exact B]|]. split; [exact C|]. cbn [fold_right]. lia.
      + destruct (multi_row binomial positive pdiv psub ps r pr g) as [[[row1 r1] g2]| | |] eqn:E2; cbn [bind] in H; try discriminate.
        injection H as <- <- <-. apply IH in E2 as (A & B & C & D); [|lia].
        split; [cbn; lia|]. split; [constructor; [lia | exact B]|]. split; [exact C|]. cbn [fold_right]. lia. }
  unfold multinomial in H. destruct pvals as [|p ps]; [discriminate|].
  destruct (multi_row binomial positive pdiv psub (removelast (p :: ps)) n one g) as [[[row r] g1]| | |] eqn:E; cbn [bind] in H; try discriminate.
  injection H as <- <-. apply HR in E as (A & B & C & D); [|lia].
  assert (map f64_of_int (row ++ [r]) = row ++ [r]) as ->.
  { rewrite <- (map_id (row ++ [r])) at 2. apply map_ext_in. intros z Hz. apply f64_of_int_small. apply in_app_or in Hz as [Hz|[<-|[]]]; [|lia].
    rewrite Forall_forall in B. specialize (B z Hz). lia. }
  split; [|split].
  - rewrite app_length, A. pose proof (app_removelast_last p (l := p :: ps) ltac:(discriminate)) as E2. apply (f_equal (@length P)) in E2.
    rewrite app_length in E2. cbn [length] in *. lia.
  - apply Forall_app. split; [|repeat constructor; lia]. eapply Forall_impl; [|exact B]. cbn. lia.
  - rewrite fold_right_app. cbn [fold_right]. rewrite Z.add_0_r. exact D.
Qed.
(* larger totals are lost in binary64 *)
Theorem C71_total_refuted : exists (binomial : Z -> unit -> unit -> option (Z * unit)) n l,
  (forall m p g c g', 0 <= m -> binomial m p g = Some (c, g') -> 0 <= c <= m) /\ 0 <= n < 2 ^ 63 /\
  multinomial binomial (fun _ => true) (fun _ _ => tt) (fun _ _ => tt) tt n [tt; tt] tt = Ok (l, tt) /\ fold_right Z.add 0 l <> n.
Proof.
  exists (fun m _ _ => Some (0, tt)), (2 ^ 53 + 1), [0; 2 ^ 53]. split; [intros m p g c g' Hm E; injection E as <- _; lia|].
  split; [lia|]. split; [vm_compute; reflexivity | vm_compute; discriminate].
Qed.
(* no categories: a panic, not an empty row *)
Theorem C71_empty_refuted : forall {G P} (binomial : Z -> P -> G -> option (Z * G)) positive pdiv psub one n g,
  multinomial binomial positive pdiv psub one n [] g = Panic.
Proof. reflexivity. Qed.
Example C71_nonvacuous :
  multinomial (fun m (_ : unit) (_ : unit) => Some (m / 2, tt)) (fun _ => true) (fun _ _ => tt) (fun _ _ => tt) tt 11 [tt; tt; tt] tt = Ok ([5; 3; 3], tt).
Proof. reflexivity. Qed.

Print Assumptions C51_step_bijective.
Print Assumptions C51_full_period.
Print Assumptions C51_equidistributed.
Print Assumptions C51_resume.
Print Assumptions C52_unit_interval.
Print Assumptions C52_even.
Print Assumptions C53_in_range.
Print Assumptions C53_uniform.
Print Assumptions C53_restart.
Print Assumptions C53_terminates.
Print Assumptions C53_integers_partial.
Print Assumptions C53_integers_refuted.
Print Assumptions C53_empty_range_refuted.
Print Assumptions C54_permutes.
Print Assumptions C54_bijection.
Print Assumptions C54_generator.
Print Assumptions C54_permutation_partial.
Print Assumptions C54_shuffle_partial.
Print Assumptions C54_shuffle_strided_refuted.
Print Assumptions C54_permutation_array_refuted.
Print Assumptions C70_distinct.
Print Assumptions C70_bijection.
Print Assumptions C70_generator.
Print Assumptions C70_too_many.
Print Assumptions C71_total_partial.
Print Assumptions C71_total_refuted.
Print Assumptions C71_empty_refuted.
