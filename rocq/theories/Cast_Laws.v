(* Promotion to a common dtype, laws of comparison, array_equal. *)
From Coq Require Import SpecFloat.
From Verif Require Import Base Lists Int_Model F64_Model Arr_Spec Arr_Model Arr_Wf Arr_Proofs Bcast_Model Bcast_Proofs Copy_Model Copy_Proofs Idx_Model Idx_Assign
  Elem_Model Elem_Proofs Rng_Model Date_Model Promo_Spec Promo_Model Promo_Proofs Promo_Props Lay_Copy Cast_Spec Cast_Model Cast_SF Cast_Proofs.
Local Open Scope Z_scope.

Lemma holds_fin k x y : numeric k = true -> (holds_value k (Fin x, Fin y) <-> holds k (x, y)).
Proof.
  intros N. destruct k; try discriminate N; cbn [holds_value holds ext_in fst snd];
    try (split; [intros (z & E & H); injection E as -> ->; exact H|intros H; exists x; split; [destruct H as [_ ->]; reflexivity|destruct H as [H ->]; split; [exact H|reflexivity]]]);
    try (split; (intros [H E]; split; [exact H|]); [injection E as ->; reflexivity|rewrite E; reflexivity]); reflexivity.
Qed.

Lemma element_value k v : real k = true -> element k v -> value v = (real_value v, Fin 0).
Proof. intros R E. destruct k; try discriminate R; destruct v; try contradiction; reflexivity. Qed.
Lemma real_numeric k : real k = true -> numeric k = true.
Proof. unfold real. intros H. apply andb_true_iff in H. apply H. Qed.

(* an element has a value of its dtype *)
Lemma element_holds k v : numeric k = true -> element k v -> holds_value k (value v).
Proof.
  intros N E. destruct k; try discriminate N; destruct v as [z|x|x y]; try contradiction; cbn [element] in E;
    try (exists (z * one); split; [reflexivity|exact E]).
  - split; [exact (valid_holds 11 16 x ltac:(lia) E ltac:(vm_compute; split; discriminate))|reflexivity].
  - split; [exact (valid_holds 24 128 x ltac:(lia) E ltac:(vm_compute; split; discriminate))|reflexivity].
  - split; [exact (valid_holds 53 1024 x ltac:(lia) E ltac:(vm_compute; split; discriminate))|reflexivity].
  - destruct E as [E E']. split; [exact (valid_holds 24 128 x ltac:(lia) E ltac:(vm_compute; split; discriminate))|exact (valid_holds 24 128 y ltac:(lia) E' ltac:(vm_compute; split; discriminate))].
  - destruct E as [E E']. split; [exact (valid_holds 53 1024 x ltac:(lia) E ltac:(vm_compute; split; discriminate))|exact (valid_holds 53 1024 y ltac:(lia) E' ltac:(vm_compute; split; discriminate))].
Qed.

(* the promoted dtype has every value of a dtype other than the 64-bit integers *)
Lemma promote_holds a b v : real a = true -> numeric b = true -> wide_int a = false -> element a v -> holds_value (promote a b) (value v).
Proof.
  intros R N W E. pose proof (real_numeric a R) as NA. pose proof (C58_numeric a b NA N) as NP.
  pose proof (element_holds a v NA E) as H. rewrite (element_value a v R E) in *.
  destruct (real_value v) as [|s|x] eqn:EV.
  3: { apply holds_fin in H; [|exact NA]. apply holds_fin; [exact NP|]. apply C58_represents_partial; assumption. }
  all: destruct a; try discriminate R; try discriminate W; try (destruct H as (z & EZ & _); discriminate EZ);
    destruct b; try discriminate N; cbn; split; try exact I; try reflexivity; apply float_zero; lia.
Qed.

Lemma promote_fits a b v : real a = true -> numeric b = true -> element a v -> kind_eqb a (promote a b) = false ->
  holds_value (promote a b) (value v) -> fits v.
Proof.
  intros R N E K H. destruct (wide_int a) eqn:W; [|exact (narrow_fits a v R W E)]. unfold fits, real_value.
  destruct a; try discriminate W; destruct b; try discriminate N; cbn in K; try discriminate K; destruct H as [H _]; exact H.
Qed.

(* conversion to the common dtype keeps values *)
Lemma conv_exact x b v : real (n_kind x) = true -> numeric b = true -> element (n_kind x) v ->
  holds_value (promote (n_kind x) b) (value v) ->
  value (conv (promote (n_kind x) b) x v) = value v /\ element (promote (n_kind x) b) (conv (promote (n_kind x) b) x v).
Proof.
  intros R N E H. unfold conv. destruct (kind_eqb (n_kind x) (promote (n_kind x) b)) eqn:K.
  - split; [reflexivity|]. rewrite <- (kind_eqb_eq _ _ K). exact E.
  - eapply cast_exact; [exact R|apply C58_numeric; [apply real_numeric; exact R|exact N]|exact E|eapply promote_fits; eassumption|exact H].
Qed.

Lemma cmp_cell_exact op x y v w : real (n_kind x) = true -> real (n_kind y) = true -> element (n_kind x) v -> element (n_kind y) w ->
  holds_value (promote (n_kind x) (n_kind y)) (value v) -> holds_value (promote (n_kind x) (n_kind y)) (value w) ->
  cmp_cell op x y v w = says op (ext_compare (real_value v) (real_value w)).
Proof.
  intros RX RY EX EY HX HY. unfold cmp_cell. cbv zeta.
  destruct (conv_exact x (n_kind y) v RX (real_numeric _ RY) EX HX) as [VX TX].
  assert (PC : promote (n_kind x) (n_kind y) = promote (n_kind y) (n_kind x)) by (apply C58_commutative_partial; apply real_numeric; assumption).
  rewrite PC in HY. destruct (conv_exact y (n_kind x) w RY (real_numeric _ RX) EY HY) as [VY TY]. rewrite <- PC in VY, TY.
  assert (RK : real (promote (n_kind x) (n_kind y)) = true).
  { clear -RX RY. destruct (n_kind x); try discriminate RX; destruct (n_kind y); try discriminate RY; reflexivity. }
  rewrite (cmp_elem_real _ op _ _ RK TX TY). unfold real_value. rewrite VX, VY. reflexivity.
Qed.

(* ---- laws ----------------------------------------------------------------- *)
Lemma SFcompare_antisym x y : SFcompare y x = option_map CompOpp (SFcompare x y).
Proof.
  destruct x as [s|s| |s m e], y as [t|t| |t m' e']; cbn [SFcompare option_map]; try reflexivity; try (destruct s; try destruct t; reflexivity); try (destruct t; reflexivity).
  change Pos.compare_cont with Pos.compare_cont. rewrite (Z.compare_antisym e e'). change (Pos.compare_cont Eq m' m) with (m' ?= m)%positive. change (Pos.compare_cont Eq m m') with (m ?= m')%positive.
  rewrite (Pos.compare_antisym m m'). destruct s, t, (e ?= e'), (m ?= m')%positive; reflexivity.
Qed.
Lemma SFeqb_sym x y : SFeqb x y = SFeqb y x.
Proof. unfold SFeqb. rewrite (SFcompare_antisym x y). destruct (SFcompare x y) as [[]|]; reflexivity. Qed.

(* the comparison with the operands exchanged *)
Definition flip_op (op : cop) : cop := match op with CGt => CLt | CLt => CGt | CGe => CLe | CLe => CGe | _ => op end.
Lemma cmp_elem_flip k op v w : cmp_elem k op v w = cmp_elem k (flip_op op) w v.
Proof.
  assert (F : forall a b, float_cmp op a b = float_cmp (flip_op op) b a) by (intros a b; destruct op; cbn [float_cmp flip_op]; rewrite ?(SFeqb_sym a b); reflexivity).
  destruct k; cbn [cmp_elem]; try apply F; destruct v as [z|a|a b], w as [z'|a'|a' b']; try reflexivity; try apply F;
    try (destruct op; cbn [int_cmp flip_op]; rewrite ?(Z.eqb_sym z z'); reflexivity);
    cbn [format]; destruct op; cbn [flip_op]; try apply F; rewrite (SFeqb_sym a a'), (SFeqb_sym b b'); reflexivity.
Qed.
Lemma cmp_elem_ne k v w : element k v -> element k w -> cmp_elem k CNe v w = negb (cmp_elem k CEq v w).
Proof.
  intros EV EW. destruct k; cbn [cmp_elem]; try reflexivity; destruct v as [z|a|a b]; try contradiction; destruct w as [z'|a'|a' b']; try contradiction; reflexivity.
Qed.
(* the conversions give the constructor of the target dtype *)
Definition shaped (k : kind) (v : scalar) : bool :=
  match k, v with
  | (Float16 | Float32 | Float64), SFlt _ | (Complex64 | Complex128), SCpx _ _ => true
  | (Bool | Int8 | Int16 | Int32 | Int64 | Uint8 | Uint16 | Uint32 | Uint64), SInt _ => true
  | _, _ => false
  end.
Lemma conv_shaped k x v : numeric k = true -> element (n_kind x) v -> shaped k (conv k x v) = true.
Proof.
  intros N E. unfold conv. destruct (kind_eqb (n_kind x) k) eqn:K.
  - apply kind_eqb_eq in K. subst k. destruct (n_kind x); try discriminate N; destruct v; try contradiction; reflexivity.
  - destruct k; try discriminate N; reflexivity.
Qed.
Lemma shaped_ne k v w : shaped k v = true -> shaped k w = true -> cmp_elem k CNe v w = negb (cmp_elem k CEq v w).
Proof. intros A B. destruct k; cbn [cmp_elem]; try reflexivity; destruct v; try discriminate A; destruct w; try discriminate B; reflexivity. Qed.
Lemma shaped_le k v w : is_complex_kind k = false -> shaped k v = true -> shaped k w = true -> cmp_elem k CLe v w = (cmp_elem k CLt v w || cmp_elem k CEq v w).
Proof.
  intros C A B.
  assert (F : forall a b, float_cmp CLe a b = (float_cmp CLt a b || float_cmp CEq a b)) by (intros a b; cbn [float_cmp]; unfold SFleb, SFltb, SFeqb; destruct (SFcompare a b) as [[]|]; reflexivity).
  destruct k; try discriminate C; cbn [cmp_elem]; try apply F; destruct v; try discriminate A; destruct w; try discriminate B; try apply F;
    rewrite !int_cmp_value; destruct (z ?= z0); reflexivity.
Qed.

Lemma cell2_ext f g x y idx : (forall v w, item_at x (unbroadcast (shape_of x) idx) = Some v -> item_at y (unbroadcast (shape_of y) idx) = Some w -> f v w = g v w) ->
  cell2 f x y idx = cell2 g x y idx.
Proof. intros H. unfold cell2. destruct (item_at x _) as [v|]; [|reflexivity]. destruct (item_at y _) as [w|]; [|reflexivity]. apply H; reflexivity. Qed.
Lemma cell2_swap g x y idx : cell2 g x y idx = cell2 (fun w v => g v w) y x idx.
Proof. unfold cell2. destruct (item_at x _), (item_at y _); reflexivity. Qed.

Lemma map_get {V} (g : list nat -> V) sh item idx : 0 < item -> inb idx sh -> get (map g (all_idx sh)) (fresh sh item) idx = Some (g idx).
Proof.
  intros HI H. rewrite fresh_get by exact HI. rewrite nth_error_map', nth_error_all_idx_rank by exact H. reflexivity.
Qed.
