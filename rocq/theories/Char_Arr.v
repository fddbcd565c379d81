(* The array functions built from the text functions. *)
From Verif Require Import Base Lists Arr_Spec Arr_Model Arr_Wf Arr_Proofs Copy_Model Copy_Proofs
  Char_Spec Char_Model Char_Proofs Char_Text Char_More.
Local Open Scope nat_scope.

Lemma list_max_ge l x : In x l -> x <= list_max_nat l.
Proof.
  unfold list_max_nat. assert (G : forall l m, m <= fold_left Nat.max l m /\
    forall x, In x l -> x <= fold_left Nat.max l m).
  { clear. induction l as [|y l IH]; intros m; cbn [fold_left]; [split; [lia|intros x []]|].
    destruct (IH (Nat.max m y)) as [H1 H2]. split; [lia|]. intros x [<-|Hx]; [lia|apply H2, Hx]. }
  intros H. apply G, H.
Qed.
Lemma write_string_fit w t : length t <= w -> write_string w t = pad w t.
Proof. intros H. unfold write_string, pad. rewrite firstn_all2 by exact H. reflexivity. Qed.
Lemma filter_text t : text t -> filter is_char t = t.
Proof.
  induction 1 as [|c t [C _] T IH]; [reflexivity|]. cbn [filter]. rewrite C, IH. reflexivity.
Qed.
Lemma read_string_ok m w p t : points m w p t -> fits w t -> read_string (Some w) m p = Ok t.
Proof.
  intros P F. unfold read_string. rewrite (text_at_ok m w p t P F). cbn [bind].
  rewrite filter_text by apply F. reflexivity.
Qed.

Definition contiguous (a : arr) : Prop := is_c_contiguous (a_shape a) (a_strides a) (a_item a) = true.

Lemma texts_flat w ts a : string_array w ts a -> contiguous a ->
  exists vals, elems ts a = map Some vals /\ length vals = size a /\ Forall (fits w) vals /\
    Forall2 (fun p t => points (strs w ts) w p t) (flat_starts w a) vals.
Proof.
  intros A C. destruct (texts_of w ts a A) as (vals & E & HL & HF & HP). exists vals.
  rewrite (flat_starts_idx w ts a A C), <- (starts_idx w ts a A). repeat split; assumption.
Qed.

Lemma unary_ok g w ts a : string_array w ts a -> contiguous a ->
  exists w' out, unary_string g (Some w) (strs w ts) a = Ok (w', strs w' out) /\ w <= w' /\
    elementwise g ts a out.
Proof.
  intros A C. destruct (texts_flat w ts a A C) as (vals & E & HL & HF & HP).
  set (w' := Nat.max w (list_max_nat (map (@length Z) (map g vals)))).
  exists w', (map g vals). split; [|split; [unfold w'; lia|apply elementwise_map; assumption]].
  unfold unary_string, with_width. rewrite (mapM_Forall2 _ _ g _ _ HP).
  - cbn [bind]. fold w'. f_equal. f_equal. unfold strs. f_equal. apply map_ext_in. intros t Ht.
    apply write_string_fit. unfold w'.
    pose proof (list_max_ge (map (@length Z) (map g vals)) (length t) (in_map _ _ _ Ht)). lia.
  - intros p t Hp Ht. rewrite Forall_forall in HF. rewrite (read_string_ok _ _ _ _ Hp (HF t Ht)). reflexivity.
Qed.

Lemma shape_eqb_refl s : shape_eqb s s = true.
Proof. induction s as [|x s IH]; [reflexivity|]. cbn [shape_eqb]. rewrite Nat.eqb_refl, IH. reflexivity. Qed.
Lemma shape_eqb_eq s t : shape_eqb s t = true <-> s = t.
Proof.
  revert t; induction s as [|x s IH]; intros [|y t]; cbn [shape_eqb]; try (split; [discriminate|intros H; discriminate]).
  - split; reflexivity.
  - rewrite andb_true_iff, Nat.eqb_eq, IH. split; [intros [-> ->]; reflexivity|intros H; injection H as -> ->; split; reflexivity].
Qed.

Lemma Forall2_combine {A B C D} (R : A -> B -> Prop) (Q : C -> D -> Prop) l m l' m' :
  Forall2 R l m -> Forall2 Q l' m' ->
  Forall2 (fun x y => R (fst x) (fst y) /\ Q (snd x) (snd y)) (combine l l') (combine m m').
Proof.
  intros H; revert l' m'; induction H as [|x y l m HR H IH]; intros l' m' H'; cbn [combine]; [constructor|].
  destruct H' as [|x' y' l' m' HQ H']; constructor; [split; assumption|apply IH; exact H'].
Qed.

Lemma elementwise2_map {B} (f : list Z -> list Z -> B) ts a us b vals wals :
  a_shape a = a_shape b ->
  elems ts a = map Some vals -> length vals = size a ->
  elems us b = map Some wals -> length wals = size b ->
  elementwise2 f ts a us b (map (fun p => f (fst p) (snd p)) (combine vals wals)).
Proof.
  intros Hs E HL F HM.
  assert (Hsz : size a = size b) by (unfold size; rewrite Hs; reflexivity).
  split; [rewrite map_length, combine_length; lia|].
  intros idx t u Hi Ht Hu.
  destruct (elementwise_map (fun x => x) ts a vals E HL) as [_ G1].
  destruct (elementwise_map (fun x => x) us b wals F HM) as [_ G2].
  specialize (G1 idx t Hi Ht). rewrite Hs in Hi. specialize (G2 idx u Hi Hu). rewrite <- Hs in G2.
  rewrite map_id in G1, G2. rewrite nth_error_map'.
  enough (Hc : nth_error (combine vals wals) (rm_rank (a_shape a) idx) = Some (t, u)) by (rewrite Hc; reflexivity).
  clear - G1 G2. revert wals G1 G2. generalize (rm_rank (a_shape a) idx) as k. 
  induction vals as [|v vals IH]; intros [|k] [|x wals] G1 G2; cbn [nth_error combine] in *; try discriminate.
  - injection G1 as ->. injection G2 as ->. reflexivity.
  - apply IH; assumption.
Qed.

Lemma binary_ok g w ts a v us b : string_array w ts a -> contiguous a ->
  string_array v us b -> contiguous b -> a_shape a = a_shape b ->
  exists w' out, binary_string g (Some w) (strs w ts) a (Some v) (strs v us) b = Ok (w', strs w' out) /\
    w <= w' /\ v <= w' /\ elementwise2 g ts a us b out.
Proof.
  intros A CA B CB Hs. destruct (texts_flat w ts a A CA) as (vals & E & HL & HF & HP).
  destruct (texts_flat v us b B CB) as (wals & E' & HL' & HF' & HP').
  set (rs := map (fun p => g (fst p) (snd p)) (combine vals wals)).
  set (w' := Nat.max (Nat.max w v) (list_max_nat (map (@length Z) rs))).
  exists w', rs. split; [|split; [unfold w'; lia|split; [unfold w'; lia|apply elementwise2_map; assumption]]].
  unfold binary_string. rewrite Hs, shape_eqb_refl.
  rewrite (mapM_Forall2 _ _ (fun p => g (fst p) (snd p)) _ _ (Forall2_combine _ _ _ _ _ _ HP HP')).
  - cbn [bind]. fold rs. fold w'. f_equal. f_equal. unfold strs. f_equal. apply map_ext_in. intros t Ht.
    apply write_string_fit. unfold w'.
    pose proof (list_max_ge (map (@length Z) rs) (length t) (in_map _ _ _ Ht)). lia.
  - intros [p q] [t u] [Hp Hq] Hin. cbn [fst snd] in *.
    pose proof (in_combine_l _ _ _ _ Hin) as Ht. pose proof (in_combine_r _ _ _ _ Hin) as Hu.
    rewrite Forall_forall in HF, HF'.
    rewrite (read_string_ok _ _ _ _ Hp (HF t Ht)). cbn [bind].
    rewrite (read_string_ok _ _ _ _ Hq (HF' u Hu)). reflexivity.
Qed.

Lemma compare_ok op w ts a v us b : string_array w ts a -> contiguous a ->
  string_array v us b -> contiguous b -> a_shape a = a_shape b ->
  exists out, compare_str op (Some w) (strs w ts) a (Some v) (strs v us) b = Ok out /\
    elementwise2 (fun t u => cmp_holds op (cmp_text t u)) ts a us b out.
Proof.
  intros A CA B CB Hs. destruct (texts_flat w ts a A CA) as (vals & E & HL & HF & HP).
  destruct (texts_flat v us b B CB) as (wals & E' & HL' & HF' & HP').
  exists (map (fun p => cmp_holds op (cmp_text (fst p) (snd p))) (combine vals wals)).
  split; [|apply (elementwise2_map (fun t u => cmp_holds op (cmp_text t u))); assumption].
  unfold compare_str. rewrite Hs, shape_eqb_refl. cbn [width_of].
  apply (mapM_Forall2 _ _ _ _ _ (Forall2_combine _ _ _ _ _ _ HP HP')).
  intros [p q] [t u] [Hp Hq] Hin. cbn [fst snd] in *.
  pose proof (in_combine_l _ _ _ _ Hin) as Ht. pose proof (in_combine_r _ _ _ _ Hin) as Hu.
  rewrite Forall_forall in HF, HF'.
  rewrite (read_string_ok _ _ _ _ Hp (HF t Ht)). cbn [bind].
  rewrite (read_string_ok _ _ _ _ Hq (HF' u Hu)). reflexivity.
Qed.

(* ---- startswith ---- *)
Lemma prefix_loop_ok m w p t : points m w p t -> forall pre i,
  Forall (fun c => c <> 0%Z) pre -> i + length pre <= w ->
  prefix_loop m p i pre = Ok (match_at pre (skipn i t)).
Proof.
  intros P. induction pre as [|c pre IH]; intros i Hn Hl; [reflexivity|].
  cbn [prefix_loop length] in *. rewrite (P i) by lia. cbn [bind]. rewrite nth_pad.
  inversion Hn as [|x l Hc Hn' E]; subst x l.
  destruct (nth_error t i) as [x|] eqn:E.
  - rewrite (nth_error_nth _ _ 0%Z E). rewrite (skipn_nth t i x E). cbn [match_at].
    destruct (x =? c)%Z; [apply IH; [exact Hn'|lia]|reflexivity].
  - apply nth_error_None in E. rewrite nth_overflow by exact E. rewrite skipn_all2 by exact E. cbn [match_at].
    destruct (Z.eqb_spec 0 c); [congruence|reflexivity].
Qed.
Lemma startswith_ok pre w ts a : string_array w ts a -> Forall (fun c => c <> 0%Z) pre -> length pre <= w ->
  exists out, startswith pre (Some w) (strs w ts) a = Ok out /\ elementwise (match_at pre) ts a out.
Proof.
  intros A Hn Hl. destruct (texts_of w ts a A) as (vals & E & HL & HF & HP).
  exists (map (match_at pre) vals). split; [|apply elementwise_map; assumption].
  unfold startswith. apply (mapM_Forall2 _ _ _ _ _ HP). intros p t Hp Ht.
  apply (prefix_loop_ok _ _ _ _ Hp pre 0); [exact Hn|lia].
Qed.

(* ---- partition ---- *)
Definition triple (r : list Z * list Z * list Z) : list (list Z) := let '(x, y, z) := r in [x; y; z].
Lemma place3_ok w r : Forall (fun s => length s <= w) (triple r) ->
  place3 w r = Ok (strs w (triple r)).
Proof.
  destruct r as [[x y] z]. cbn [triple]. intros H. inversion H as [|? ? Hx H1]; subst.
  inversion H1 as [|? ? Hy H2]; subst. inversion H2 as [|? ? Hz _]; subst.
  unfold place3, strs. rewrite !place_ok by assumption. cbn [bind map concat]. rewrite app_nil_r. reflexivity.
Qed.
Lemma strs_app w ts us : strs w (ts ++ us) = strs w ts ++ strs w us.
Proof. unfold strs. rewrite map_app, concat_app. reflexivity. Qed.
Lemma concat_strs w (g : list Z -> list (list Z)) vals :
  concat (map (fun t => strs w (g t)) vals) = strs w (flat_map g vals).
Proof.
  induction vals as [|t vals IH]; [reflexivity|]. cbn [map concat flat_map]. rewrite IH, strs_app. reflexivity.
Qed.
Lemma nth_triples (g : list Z -> list Z * list Z * list Z) vals k t j : nth_error vals k = Some t -> j < 3 ->
  nth_error (flat_map (fun t => triple (g t)) vals) (k * 3 + j) = nth_error (triple (g t)) j.
Proof.
  revert k; induction vals as [|v vals IH]; intros [|k] E Hj; cbn [nth_error] in E; try discriminate; cbn [flat_map].
  - injection E as ->. cbn [Nat.mul Nat.add]. apply nth_error_app1.
    destruct (g t) as [[x y] z]. cbn [triple length]. exact Hj.
  - rewrite nth_error_app2; destruct (g v) as [[x y] z]; cbn [triple length].
    + replace (S k * 3 + j - 3) with (k * 3 + j) by lia. apply IH; assumption.
    + lia.
Qed.
Lemma rank_last sh idx n j : length idx = length sh ->
  rm_rank (sh ++ [n]) (idx ++ [j]) = rm_rank sh idx * n + j.
Proof.
  revert idx; induction sh as [|s sh IH]; intros [|i idx] HL; try discriminate; cbn [app rm_rank prod].
  - lia.
  - rewrite IH by (cbn [length] in HL; lia).
    assert (Hp : prod (sh ++ [n]) = prod sh * n).
    { clear. induction sh as [|s sh IH]; cbn [app prod]; [lia|]. rewrite IH. lia. }
    rewrite Hp. lia.
Qed.
Lemma partition_arr g sep w ts a : string_array w ts a -> sep <> [] ->
  (forall t, fits w t -> Forall (fun s => length s <= w) (triple (g t))) ->
  exists out, partition_with g sep (Some w) (strs w ts) a = Ok (a_shape a ++ [3], (w, strs w out)) /\
    length out = size a * 3 /\
    forall idx t j, inb idx (a_shape a) -> get ts a idx = Some t -> j < 3 ->
      nth_error out (rm_rank (a_shape a ++ [3]) (idx ++ [j])) = nth_error (triple (g t)) j.
Proof.
  intros A Hs Hg. destruct (texts_of w ts a A) as (vals & E & HL & HF & HP).
  exists (flat_map (fun t => triple (g t)) vals). split; [|split].
  - unfold partition_with. destruct (Nat.eqb_spec (length sep) 0) as [H|H]; [destruct sep; [contradiction|discriminate]|].
    rewrite (mapM_Forall2 _ _ (fun t => strs w (triple (g t))) _ _ HP).
    + cbn [bind]. rewrite concat_strs. reflexivity.
    + intros p t Hp Ht. rewrite Forall_forall in HF. rewrite (text_at_ok _ _ _ _ Hp (HF t Ht)). cbn [bind].
      apply place3_ok, Hg, HF, Ht.
  - rewrite <- HL. clear. induction vals as [|t vals IH]; [reflexivity|]. cbn [flat_map length].
    rewrite app_length, IH. destruct (g t) as [[x y] z]. cbn [triple length]. lia.
  - intros idx t j Hi Ht Hj. rewrite rank_last.
    + apply nth_triples; [|exact Hj]. destruct (elementwise_map (fun x => x) ts a vals E HL) as [_ G].
      specialize (G idx t Hi Ht). rewrite map_id in G. exact G.
    + exact (inb_length _ _ Hi).
Qed.
Lemma cut3_fits w sep t o none : fits w t ->
  (forall i, o = Some i -> occurs_at sep t i) -> Forall (fun s => length s <= w) (triple none) ->
  Forall (fun s => length s <= w) (triple (cut3 sep t o none)).
Proof.
  intros [_ HL] Ho Hn. destruct o as [i|]; [|exact Hn]. cbn [cut3 triple].
  pose proof (occurs_bound _ _ _ (Ho i eq_refl)).
  repeat constructor.
  - rewrite firstn_length. lia.
  - lia.
  - rewrite skipn_length. lia.
Qed.

(* ---- replace ---- *)
Lemma size0_elementwise {B} (f : list Z -> B) ts a : size a = 0 -> elementwise f ts a [].
Proof.
  intros H. split; [symmetry; exact H|]. intros idx t Hi _.
  exfalso. pose proof (rank_lt (a_shape a) idx Hi). unfold size in H. lia.
Qed.
Lemma replace_arr old new mc w ts a : string_array w ts a -> old <> [] ->
  exists w' out, replace old new mc (Some w) (strs w ts) a = Ok (w', strs w' out) /\ w <= w' /\
    elementwise (replace_text old new mc) ts a out.
Proof.
  intros A Ho. unfold replace, with_width.
  destruct (Nat.eqb_spec (size a) 0) as [H0|H0].
  { exists w, []. split; [reflexivity|]. split; [lia|]. apply size0_elementwise, H0. }
  destruct (Nat.eqb_spec (length old) 0) as [H|H]; [destruct old; [contradiction|discriminate]|].
  destruct (texts_of w ts a A) as (vals & E & HL & HF & HP).
  rewrite (mapM_Forall2 _ _ (replaced_len old new mc) _ _ HP).
  2:{ intros p t Hp Ht. rewrite Forall_forall in HF. rewrite (text_at_ok _ _ _ _ Hp (HF t Ht)). reflexivity. }
  cbn [bind]. set (w' := Nat.max w (list_max_nat (map (replaced_len old new mc) vals))).
  destruct (write_ok w w' (replace_text old new mc) ts a A) as (out & E1 & E2).
  - intros idx t Hi Hg. rewrite replaced_len_ok by exact Ho. unfold w'.
    assert (Hin : In t vals).
    { assert (Hs : In (Some t) (elems ts a)).
      { unfold elems. rewrite <- Hg. apply in_map, in_all_idx, Hi. }
      rewrite E in Hs. apply in_map_iff in Hs. destruct Hs as (x & Ex & Hx). injection Ex as ->. exact Hx. }
    pose proof (list_max_ge _ _ (in_map (replaced_len old new mc) _ _ Hin)). lia.
  - exists w', out. split; [exact E1|]. split; [unfold w'; lia|exact E2].
Qed.
