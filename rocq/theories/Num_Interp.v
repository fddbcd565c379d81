(* Linear interpolation over the rationals. *)
From Coq Require Import QArith Lqa.
From Verif Require Import Base Lists Arr_Spec Arr_Model Arr_Wf Arr_Proofs Copy_Model Copy_Proofs Elem_Model Num_Model.
Local Open Scope nat_scope.

Lemma at_nth {A} (l : list A) i d : i < length l -> at_ l i = Ok (nth i l d).
Proof. intros H. unfold at_. rewrite (nth_error_nth' l d H). reflexivity. Qed.

(* the search, for any comparison *)
Lemma bisect_spec {R} (le : R -> R -> bool) (d : R) xp xi : forall fuel lo hi, lo < hi -> hi < length xp -> hi - lo <= S fuel ->
  le (nth lo xp d) xi = true -> le (nth hi xp d) xi = false ->
  exists i, bisect le xp xi fuel lo hi = Ok (i, S i) /\ lo <= i < hi /\ le (nth i xp d) xi = true /\ le (nth (S i) xp d) xi = false.
Proof.
  induction fuel as [|fuel IH]; intros lo hi H1 H2 H3 H4 H5; cbn [bisect].
  - exists lo. replace hi with (S lo) in * by lia. repeat split; try assumption; lia.
  - destruct (Nat.ltb_spec 1 (hi - lo)) as [Hd|Hd].
    + set (mid := (lo + hi) / 2). assert (HM : lo < mid < hi).
      { pose proof (Nat.div_mod (lo + hi) 2 ltac:(lia)). pose proof (Nat.mod_upper_bound (lo + hi) 2 ltac:(lia)).
        unfold mid. lia. }
      rewrite (at_nth xp mid d) by lia. cbn [bind]. destruct (le (nth mid xp d) xi) eqn:E.
      * destruct (IH mid hi) as (i & EI & HI & A & B); [lia..|exact E|exact H5|]. exists i. repeat split; try assumption; lia.
      * destruct (IH lo mid) as (i & EI & HI & A & B); [lia..|exact H4|exact E|]. exists i. repeat split; try assumption; lia.
    + exists lo. replace hi with (S lo) in * by lia. repeat split; try assumption; lia.
Qed.

Lemma interp_single_cases {R} add sub mul div (le : R -> R -> bool) (d : R) xi xp fp left right :
  0 < length xp -> length fp = length xp -> (le xi (nth 0 xp d) = false -> le (nth 0 xp d) xi = true) ->
  (le xi (nth 0 xp d) = true /\ interp_single add sub mul div le xi xp fp left right = Ok left) \/
  (le xi (nth 0 xp d) = false /\ le (nth (length xp - 1) xp d) xi = true /\ interp_single add sub mul div le xi xp fp left right = Ok right) \/
  exists i, S i < length xp /\ le (nth i xp d) xi = true /\ le (nth (S i) xp d) xi = false /\
    interp_single add sub mul div le xi xp fp left right =
    Ok (add (nth i fp d) (mul (div (sub xi (nth i xp d)) (sub (nth (S i) xp d) (nth i xp d))) (sub (nth (S i) fp d) (nth i fp d)))).
Proof.
  intros HN HL HT. unfold interp_single. rewrite (at_nth xp 0 d) by exact HN. cbn [bind].
  destruct (le xi (nth 0 xp d)) eqn:E0; [left; split; reflexivity|right].
  rewrite (at_nth xp (length xp - 1) d) by lia. cbn [bind].
  destruct (le (nth (length xp - 1) xp d) xi) eqn:E1; [left; repeat split; reflexivity|right].
  specialize (HT eq_refl).
  assert (H2 : 0 < length xp - 1).
  { destruct (Nat.eq_dec (length xp) 1) as [E|]; [|lia]. rewrite E in E1. cbn [Nat.sub] in E1. congruence. }
  destruct (bisect_spec le d xp xi (length xp) 0 (length xp - 1) H2 ltac:(lia) ltac:(lia) HT E1) as (i & -> & HI & A & B).
  cbn [bind]. exists i. split; [lia|]. split; [exact A|]. split; [exact B|].
  rewrite (at_nth xp i d), (at_nth xp (S i) d), (at_nth fp i d), (at_nth fp (S i) d) by lia. reflexivity.
Qed.

Local Open Scope Q_scope.
Definition increasing (xs : list Q) : Prop := forall i j, (i < j < length xs)%nat -> nth i xs 0 < nth j xs 0.
Definition qinterp (xp fp : list Q) (x : Q) : res Q :=
  interp_single Qplus Qminus Qmult Qdiv Qle_bool x xp fp (nth 0 fp 0) (nth (length fp - 1) fp 0).

(* the value of the line through knots i and i+1 *)
Definition segment (xp fp : list Q) (i : nat) (x : Q) : Q :=
  nth i fp 0 + (x - nth i xp 0) / (nth (S i) xp 0 - nth i xp 0) * (nth (S i) fp 0 - nth i fp 0).

Lemma segment_left xp fp i x : increasing xp -> (S i < length xp)%nat -> x == nth i xp 0 -> segment xp fp i x == nth i fp 0.
Proof.
  intros HI H E. unfold segment. pose proof (HI i (S i) ltac:(lia)) as L. rewrite E. field. lra.
Qed.
Lemma segment_right xp fp i x : increasing xp -> (S i < length xp)%nat -> x == nth (S i) xp 0 -> segment xp fp i x == nth (S i) fp 0.
Proof.
  intros HI H E. unfold segment. pose proof (HI i (S i) ltac:(lia)) as L. rewrite E. field. lra.
Qed.

Lemma Qle_bool_false x y : Qle_bool x y = false <-> y < x.
Proof.
  split.
  - intros H. apply Qnot_le_lt. intros C. apply Qle_bool_iff in C. congruence.
  - intros H. destruct (Qle_bool x y) eqn:E; [|reflexivity]. apply Qle_bool_iff in E. lra.
Qed.
Lemma increasing_le xs i j : increasing xs -> (i <= j < length xs)%nat -> nth i xs 0 <= nth j xs 0.
Proof. intros HI H. destruct (Nat.eq_dec i j) as [->|]; [lra|]. apply Qlt_le_weak, HI. lia. Qed.

(* inside any segment (ends included) the result is the value of its line *)
Lemma qinterp_segment xp fp x i : increasing xp -> length fp = length xp -> (S i < length xp)%nat ->
  nth i xp 0 <= x <= nth (S i) xp 0 -> exists v, qinterp xp fp x = Ok v /\ v == segment xp fp i x.
Proof.
  intros HI HL Hi [H1 H2]. unfold qinterp.
  destruct (interp_single_cases Qplus Qminus Qmult Qdiv Qle_bool 0 x xp fp (nth 0 fp 0) (nth (length fp - 1) fp 0))
    as [[E0 E]|[(E0 & E1 & E)|(j & Hj & A & B & E)]]; [lia|exact HL| | | |].
  - intros F. apply Qle_bool_false in F. apply Qle_bool_iff. lra.
  - exists (nth 0 fp 0). split; [exact E|]. apply Qle_bool_iff in E0.
    pose proof (increasing_le xp 0 i HI ltac:(lia)) as M.
    assert (EX : x == nth i xp 0) by lra.
    destruct (Nat.eq_dec i 0) as [->|N]; [symmetry; apply segment_left; assumption|].
    pose proof (HI 0%nat i ltac:(lia)). lra.
  - exists (nth (length fp - 1) fp 0). split; [exact E|]. apply Qle_bool_iff in E1.
    pose proof (increasing_le xp (S i) (length xp - 1) HI ltac:(lia)) as M.
    destruct (Nat.eq_dec (S i) (length xp - 1)) as [N|N].
    + rewrite HL, <- N. symmetry. apply segment_right; try assumption. rewrite <- N in E1. lra.
    + pose proof (HI (S i) (length xp - 1)%nat ltac:(lia)). lra.
  - apply Qle_bool_iff in A. apply Qle_bool_false in B. eexists. split; [exact E|].
    destruct (Nat.lt_trichotomy i j) as [L|[->|L]].
    + pose proof (increasing_le xp (S i) j HI ltac:(lia)).
      assert (EX : x == nth (S i) xp 0) by lra.
      destruct (Nat.eq_dec (S i) j) as [<-|N]; [|pose proof (HI (S i) j ltac:(lia)); lra].
      transitivity (nth (S i) fp 0); [apply (segment_left xp fp (S i) x); assumption|symmetry; apply segment_right; assumption].
    + reflexivity.
    + pose proof (increasing_le xp (S j) i HI ltac:(lia)). lra.
Qed.
Lemma qinterp_below xp fp x : (0 < length xp)%nat -> length fp = length xp -> x <= nth 0 xp 0 -> qinterp xp fp x = Ok (nth 0 fp 0).
Proof.
  intros HN HL H. unfold qinterp, interp_single. rewrite (at_nth xp 0 0) by exact HN. cbn [bind].
  apply Qle_bool_iff in H. rewrite H. reflexivity.
Qed.
Lemma qinterp_above xp fp x : increasing xp -> (0 < length xp)%nat -> length fp = length xp -> nth (length xp - 1) xp 0 <= x ->
  qinterp xp fp x = Ok (nth (length fp - 1) fp 0).
Proof.
  intros HI HN HL H. unfold qinterp, interp_single. rewrite (at_nth xp 0 0) by exact HN. cbn [bind].
  destruct (Qle_bool x (nth 0 xp 0)) eqn:E.
  - apply Qle_bool_iff in E. destruct (Nat.eq_dec (length xp) 1) as [N|N]; [rewrite HL, N; reflexivity|].
    pose proof (HI 0%nat (length xp - 1)%nat ltac:(lia)). lra.
  - rewrite (at_nth xp (length xp - 1) 0) by lia. cbn [bind]. apply Qle_bool_iff in H. rewrite H. reflexivity.
Qed.

(* every x is below, above, or in a segment *)
Lemma locate xp x : (0 < length xp)%nat -> nth 0 xp 0 <= x -> x <= nth (length xp - 1) xp 0 ->
  length xp = 1%nat \/ exists i, (S i < length xp)%nat /\ nth i xp 0 <= x <= nth (S i) xp 0.
Proof.
  intros HN H0 H1. destruct (Nat.eq_dec (length xp) 1) as [|N]; [left; assumption|right].
  assert (G : forall k, (k < length xp)%nat -> x <= nth k xp 0 -> (0 < k)%nat -> exists i, (S i < length xp)%nat /\ nth i xp 0 <= x <= nth (S i) xp 0).
  { induction k as [|k IH]; intros Hk Hx Hp; [lia|]. destruct (Qlt_le_dec (nth k xp 0) x) as [C|C].
    - exists k. split; [exact Hk|]. split; [apply Qlt_le_weak, C|exact Hx].
    - destruct (Nat.eq_dec k 0) as [->|]; [|apply IH; [lia|exact C|lia]].
      exists 0%nat. split; [lia|]. split; [exact H0|exact Hx]. }
  apply (G (length xp - 1)%nat); [lia|exact H1|lia].
Qed.

Lemma segment_between xp fp i x : increasing xp -> (S i < length xp)%nat -> nth i xp 0 <= x <= nth (S i) xp 0 ->
  (nth i fp 0 <= segment xp fp i x <= nth (S i) fp 0) \/ (nth (S i) fp 0 <= segment xp fp i x <= nth i fp 0).
Proof.
  intros HI Hi [H1 H2]. pose proof (HI i (S i) ltac:(lia)) as L. unfold segment.
  set (t := (x - nth i xp 0) / (nth (S i) xp 0 - nth i xp 0)).
  assert (T0 : 0 <= t) by (apply Qle_shift_div_l; lra).
  assert (T1 : t <= 1) by (apply Qle_shift_div_r; lra).
  destruct (Qlt_le_dec (nth i fp 0) (nth (S i) fp 0)) as [C|C]; [left|right]; split; nra.
Qed.

(* a non-decreasing fp gives a non-decreasing function *)
Lemma segment_mono xp fp i x y : increasing xp -> (S i < length xp)%nat -> nth i fp 0 <= nth (S i) fp 0 -> x <= y ->
  segment xp fp i x <= segment xp fp i y.
Proof.
  intros HI Hi HF H. pose proof (HI i (S i) ltac:(lia)) as L. unfold segment.
  assert (D : (x - nth i xp 0) / (nth (S i) xp 0 - nth i xp 0) <= (y - nth i xp 0) / (nth (S i) xp 0 - nth i xp 0)).
  { apply Qle_shift_div_l; [lra|]. rewrite Qmult_comm, Qmult_div_r by lra. lra. }
  nra.
Qed.
